#!/usr/bin/env python3
"""Appends the results of mutate.py (out.jsonl) to seeded/LOG.jsonl.  usage: log_mutations.py out.jsonl"""
import sys, json, os
root = os.path.dirname(os.path.dirname(os.path.abspath(__file__)))
def definition(r):
    if 'definition' in r: return r['definition']
    import re
    t = open(root + '/rocq/theories/%s.v' % r['file']).read()
    i = t.find(r['old'])
    if i < 0: i = len(t)
    i += len(r['old'])
    ds = re.findall(r'^(?:Definition|Fixpoint|Inductive|Record|Notation)\s+(\w+)', t[:i], re.M)
    return ds[-1] if ds else '?'
with open(root + '/seeded/LOG.jsonl', 'a') as o:
    for l in open(sys.argv[1]):
        r = json.loads(l)
        if not r['result'].startswith(('built', 'model or')): continue
        o.write(json.dumps({
            'definition': '%s.%s' % (r['file'], definition(r)),
            'edit': '%s  ==>  %s' % (r['old'], r['new']),
            'claim_broken': r['claim'],
            'theorems_failed': r.get('failed') if r['result'] == 'built' else [r['result']],
            'lemmas_failed': r.get('admitted', []),
            'theorems_tightened': r.get('tightened', []),
        }) + '\n')
