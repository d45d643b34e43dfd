#!/usr/bin/env python3
"""claim.py PROPERTY STATUS NOTE: set the MANIFEST entry of PROPERTY; its theorems
are all theorems under rocq/theories named PROPERTY_*."""
import json, re, sys, glob
prop, status, note = sys.argv[1:4]
names = []
for f in sorted(glob.glob('/verif/rocq/theories/**/*.v', recursive=True)):
    names += re.findall(r'^(?:Theorem|Corollary)\s+(%s_\w+)' % prop, open(f).read(), re.M)
p = '/verif/MANIFEST.json'
m = json.load(open(p))
m['claims'] = [c for c in m['claims'] if c['property'] != prop]
m['claims'].append({'property': prop, 'status': status, 'theorems': names, 'note': note})
m['claims'].sort(key=lambda c: c['property'])
json.dump(m, open(p, 'w'), indent=1)
print(prop, status, names)
