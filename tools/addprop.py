#!/usr/bin/env python3
"""addprop.py: reads JSON objects (one per line) from stdin and adds or replaces them in properties.jsonl."""
import json, sys, os
root = os.path.dirname(os.path.dirname(os.path.abspath(__file__)))
ps = {json.loads(l)['id']: json.loads(l) for l in open(root + '/properties.jsonl') if l.strip()}
for l in sys.stdin:
    if l.strip():
        o = json.loads(l); ps[o['id']] = o
with open(root + '/properties.jsonl', 'w') as f:
    for k in sorted(ps): f.write(json.dumps(ps[k]) + '\n')
