#!/usr/bin/env python3
"""note.py C14 [status=...] text: set the MANIFEST note of a property."""
import json, os, sys
p = os.path.join(os.path.dirname(os.path.abspath(__file__)), 'notes.json')
d = json.load(open(p))
a = sys.argv[2:]
e = d.setdefault(sys.argv[1], {})
if a and a[0].startswith('status='):
    e['status'] = a.pop(0)[7:]
e['note'] = ' '.join(a)
json.dump(d, open(p, 'w'), indent=1, sort_keys=True)
