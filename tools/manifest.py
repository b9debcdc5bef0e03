#!/usr/bin/env python3
"""Regenerates MANIFEST.json from the theorem names in rocq/theories/Prop*.v (cNN_...)."""
import re, json, glob, os
root = os.path.dirname(os.path.dirname(os.path.abspath(__file__)))
notes = json.load(open(root + '/tools/notes.json'))
props = [json.loads(l)['id'] for l in open(root + '/properties.jsonl') if l.strip()]
th = {}
for f in sorted(glob.glob(root + '/rocq/theories/Prop*.v')):
    mod = os.path.basename(f)[:-2]
    for m in re.finditer(r'^Theorem (c(\d\d)_\w+)', open(f).read(), re.M):
        th.setdefault('C' + m.group(2), []).append((mod, m.group(1)))
claims = []
for p in props:
    t = th.get(p, [])
    names = [n for _, n in t]
    if not names:
        continue
    n = notes.get(p, {})
    status = n.get('status') or ('partial' if any(x.endswith(('_partial', '_refuted')) for x in names) else 'proved')
    files = sorted({m for m, _ in t})
    claims.append({'property': p, 'status': status, 'theorems': names,
                   'note': (n.get('note', '') + ' [' + ', '.join('theories/%s.v' % m for m in files) + ']').strip()})
json.dump({'claims': claims}, open(root + '/MANIFEST.json', 'w'), indent=1)
missing = [p for p in props if p not in th]
print(len(claims), 'claims; without theorem:', missing)
