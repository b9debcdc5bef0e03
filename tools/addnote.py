#!/usr/bin/env python3
"""addnote.py CNN 'note' [status]"""
import json, sys, os
root = os.path.dirname(os.path.dirname(os.path.abspath(__file__)))
n = json.load(open(root + '/tools/notes.json'))
o = {'note': sys.argv[2]}
if len(sys.argv) > 3: o['status'] = sys.argv[3]
n[sys.argv[1]] = o
json.dump(n, open(root + '/tools/notes.json', 'w'), indent=1)
