#!/usr/bin/env python3
"""Write seeded/LOG.jsonl from the results of mutate.py (one JSON line each).

    log_mutations.py RESULTS.jsonl
"""
import json, os, sys
here = os.path.dirname(os.path.abspath(__file__))
sys.path.insert(0, here)
sys.dont_write_bytecode = True
from mutations import MUTATIONS, TIGHTENED
LOG = os.path.join(here, '..', 'seeded', 'LOG.jsonl')
old = [json.loads(l) for l in open(LOG)] if os.path.exists(LOG) else []
have = {x['attempt'] for x in old}
for l in open(sys.argv[1]):
    d = json.loads(l)
    if d['mutation'] in have: continue
    have.add(d['mutation'])
    m = MUTATIONS[d['mutation']]
    old.append(dict(attempt=d['mutation'], definition=f"{m['file']}.v: {m['definition']}", edit=m['edit'],
                    claim=', '.join(m['claims']) + ': ' + m['why'],
                    theorems_failed=d['failed'], lemmas_failed=d['broken'],
                    theorems_tightened=[], notes='; '.join(n if len(n) < 120 else n[:120] for n in d['notes'])))
for x in old:
    t = TIGHTENED.get(x['attempt'])
    if t: x['theorems_tightened'], x['notes'] = t[0], t[1]
with open(LOG, 'w') as f:
    for x in old: f.write(json.dumps(x) + '\n')
print(len(old))
