#!/usr/bin/env python3
"""Mutation test: apply an edit to a model file in a scratch copy, rebuild, turn every lemma whose
proof breaks into Admitted and go on; the property theorems that then rest on an admitted lemma are
the ones that 'failed'.  usage: mutate.py mutations.json [out.jsonl]"""
import sys, json, re, os, time, subprocess, shutil, concurrent.futures as cf
SRC = os.environ.get('SRC', '/verif/rocq')
HEAD = re.compile(r'^\s*(?:Local |Global |#\[.*?\] )?(?:Lemma|Theorem|Example|Corollary|Fact|Remark|Proposition)\s+(\w+)')

def run(m):
    d = '/tmp/mut/%s' % m['name']
    shutil.rmtree(d, ignore_errors=True)
    subprocess.run(['cp', '-a', SRC, d], check=True)
    p = '%s/theories/%s.v' % (d, m['file'])
    s = open(p).read()
    if s.count(m['old']) != m.get('count', 1):
        return dict(m, result='edit does not apply (%d matches)' % s.count(m['old']))
    open(p, 'w').write(s.replace(m['old'], m['new']))
    subprocess.run(['coq_makefile', '-f', '_CoqProject', '-o', 'Makefile'], cwd=d, check=True, stdout=subprocess.DEVNULL)
    admitted, out, start = [], '', time.time() - 2
    for _ in range(80):
        r = subprocess.run('ulimit -v 5000000; timeout 1200 make -k -j2 2>&1', shell=True, cwd=d, stdout=subprocess.PIPE, text=True)
        out += r.stdout
        errs = re.findall(r'File "\./theories/(\w+)\.v", line (\d+), characters [^\n]*\n(?:Error|.*\nError)', r.stdout)
        if r.returncode == 0:
            break
        if not errs:
            return dict(m, result='build problem', tail=r.stdout[-600:], admitted=admitted)
        done = set()
        for f, ln in errs:
            if f in done: continue
            done.add(f)
            q = '%s/theories/%s.v' % (d, f); L = open(q).read().split('\n'); ln = int(ln) - 1
            i = ln
            while i >= 0 and not HEAD.match(L[i]): i -= 1
            j = i
            while i >= 0 and j < len(L) and not re.search(r'\b(Qed|Defined|Admitted)\.', L[j]): j += 1
            if i < 0 or j < ln or j >= len(L):
                return dict(m, result='model or statement no longer typechecks: %s.v:%d %s' % (f, ln + 1, L[ln][:90]), admitted=admitted)
            name = HEAD.match(L[i]).group(1)
            k = i
            while k < len(L) and 'Proof.' not in L[k]: k += 1
            if k >= len(L) or k > j:
                return dict(m, result='model or statement no longer typechecks: %s.v:%d %s' % (f, ln + 1, L[ln][:90]), admitted=admitted)
            L[k] = L[k].split('Proof.')[0] + 'Admitted.'
            for t in range(k + 1, j + 1): L[t] = ''
            open(q, 'w').write('\n'.join(L)); admitted.append('%s.%s' % (f, name))
    # property theorems resting on admitted lemmas
    failed = []
    for f in sorted(os.listdir(d + '/theories')):
        if not (f.startswith('Prop') and f.endswith('.v')): continue
        mod = f[:-2]
        if os.path.getmtime('%s/theories/%s.vo' % (d, mod)) < start: continue   # not rebuilt: does not depend on the edit
        ths = re.findall(r'^Theorem (c\d\d_\w+)', open('%s/theories/%s' % (SRC, f)).read(), re.M)
        t = 'From Verif Require Import %s.\n' % mod + ''.join('Print Assumptions %s.\n' % x for x in ths)
        open(d + '/chk.v', 'w').write(t)
        o = subprocess.run(['coqc', '-Q', 'theories', 'Verif', 'chk.v'], cwd=d, stdout=subprocess.PIPE, stderr=subprocess.STDOUT, text=True).stdout
        parts = re.split(r'^(?=Closed under|Axioms:)', o, flags=re.M)
        parts = [x for x in parts if x.strip()]
        if len(parts) != len(ths): failed.append('?? ' + mod + o[-200:])
        for th, x in zip(ths, parts):
            if not x.startswith('Closed'): failed.append(th)
    shutil.rmtree(d, ignore_errors=True)
    return dict(m, result='built', admitted=admitted, failed=failed)

if __name__ == '__main__':
    muts = json.load(open(sys.argv[1])); os.makedirs('/tmp/mut', exist_ok=True)
    outf = open(sys.argv[2], 'a') if len(sys.argv) > 2 else None
    with cf.ThreadPoolExecutor(2) as ex:
        for r in ex.map(run, muts):
            print(json.dumps({k: r[k] for k in r if k not in ('old', 'new')}, indent=1), flush=True)
            if outf: outf.write(json.dumps(r) + '\n'); outf.flush()
