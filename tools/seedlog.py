#!/usr/bin/env python3
"""Append mutation results (jsonl of run.py) to seeded/LOG.jsonl.
usage: seedlog.py results.jsonl [tightened.json]   (tightened: {index or name+new: [theorems]})"""
import json,sys
t=json.load(open(sys.argv[2])) if len(sys.argv)>2 else {}
with open('/verif/seeded/LOG.jsonl','a') as f:
    for l in open(sys.argv[1]):
        d=json.loads(l)
        key=d['name']+'|'+d['new']
        extra=t.get(key,{})
        f.write(json.dumps({"definition":"%s (%s)"%(d['name'],d.get('file','')),"edit":{"old":d['old'],"new":d['new']},
          "claim_broken":extra.get('claim',d['claim']),"theorems_failed":extra.get('failed',d['failed']),"modules_blocked":d.get("blocked",[]),
          "theorems_tightened":extra.get('tightened',[]),**({"comment":extra['comment']} if 'comment' in extra else {})})+"\n")
