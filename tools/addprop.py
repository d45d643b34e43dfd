"""Append properties to properties.jsonl from a small text format on stdin.

Records are separated by blank lines; each line is 'key: value'.
Keys: id title statement quantifier why anchors (anchors separated by ';').
A record whose id already exists replaces the old one.
"""
import sys, json, os
P = os.path.join(os.path.dirname(os.path.abspath(__file__)), '..', 'properties.jsonl')
recs = {}
if os.path.exists(P):
    for l in open(P):
        l = l.strip()
        if l:
            r = json.loads(l); recs[r['id']] = r
for blk in sys.stdin.read().strip().split('\n\n'):
    r = {}
    for l in blk.strip().split('\n'):
        k, v = l.split(':', 1)
        k = k.strip(); v = v.strip()
        if k == 'why': k = 'why_tests_cant'
        if k == 'anchors': v = [a.strip() for a in v.split(';') if a.strip()]
        r[k] = v
    for k in ('id', 'title', 'statement', 'quantifier', 'why_tests_cant', 'anchors'):
        assert k in r, (k, r)
    recs[r['id']] = r
with open(P, 'w') as f:
    for k in sorted(recs, key=lambda s: int(s[1:])):
        f.write(json.dumps(recs[k]) + '\n')
print(len(recs))
