#!/usr/bin/env python3
"""addprop.py: read JSON objects (one per line) on stdin; add or replace by id in properties.jsonl."""
import sys, json, os
p = os.path.join(os.path.dirname(os.path.dirname(os.path.abspath(__file__))), 'properties.jsonl')
rows = [json.loads(l) for l in open(p) if l.strip()]
idx = {r['id']: r for r in rows}
for l in sys.stdin:
    if not l.strip(): continue
    d = json.loads(l)
    if d['id'] in idx: idx[d['id']].update(d)
    else: rows.append(d); idx[d['id']] = d
for r in rows:
    for k in ('id','title','statement','quantifier','why_tests_cant','anchors'):
        assert k in r, (r['id'], k)
open(p, 'w').write(''.join(json.dumps(r, ensure_ascii=False) + '\n' for r in rows))
