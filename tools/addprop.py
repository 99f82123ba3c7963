#!/usr/bin/env python3
"""add or replace properties: reads JSON objects, one per line, from stdin"""
import json, sys
p='/verif/properties.jsonl'
rows=[json.loads(l) for l in open(p) if l.strip()]
for l in sys.stdin:
    if not l.strip(): continue
    o=json.loads(l)
    for i,r in enumerate(rows):
        if r['id']==o['id']:
            r.update(o); break
    else: rows.append(o)
rows.sort(key=lambda r:int(r['id'][1:]))
open(p,'w').write(''.join(json.dumps(r,ensure_ascii=False)+'\n' for r in rows))
