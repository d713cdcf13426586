#!/usr/bin/env python3
"""Write MANIFEST.json from the theorem names in rocq/theories/Props_*.v and
the statuses and notes in tools/status.json."""
import collections
import glob
import json
import os
import re

HERE = os.path.dirname(os.path.abspath(__file__))
ROOT = os.path.join(HERE, '..')
theorems = collections.defaultdict(list)
for path in sorted(glob.glob(os.path.join(ROOT, 'rocq', 'theories', 'Props_*.v'))):
    for m in re.finditer(r'^Theorem (C\d\d\d?)_(\w+)', open(path).read(), re.M):
        theorems[m.group(1)].append(m.group(1) + '_' + m.group(2))
status = json.load(open(os.path.join(HERE, 'status.json')))
ids = [json.loads(line)['id'] for line in open(os.path.join(ROOT, 'properties.jsonl'))]
claims = []
for i in ids:
    if i in theorems:
        s, note = status.get(i, ['proved', ''])
        assert s != 'proved' or not any('_partial' in t or '_refuted' in t for t in theorems[i]), i
        claims.append(dict(property=i, status=s, theorems=theorems[i], note=note))
    else:
        claims.append(dict(property=i, status='partial', theorems=[], note='not proved yet'))
json.dump(dict(claims=claims), open(os.path.join(ROOT, 'MANIFEST.json'), 'w'), indent=1, ensure_ascii=False)
print(len(theorems), 'of', len(ids), 'properties with theorems;', sum(map(len, theorems.values())), 'theorems')
print('without:', [i for i in ids if i not in theorems])
