#!/usr/bin/env python3
"""Expand tools/props/Props_X.in into rocq/theories/Props_X.v.

A line `@C01_times c01_times` becomes the theorem C01_times with the statement
of the lemma c01_times (looked up in the theories), closed by `exact`, followed
by Print Assumptions.  All other lines are copied verbatim.
"""
import glob
import os
import re

HERE = os.path.dirname(os.path.abspath(__file__))
THEORIES = os.path.join(HERE, '..', 'rocq', 'theories')

lemmas = {}
for path in glob.glob(os.path.join(THEORIES, '*.v')):
    if os.path.basename(path).startswith('Props_'):
        continue
    for m in re.finditer(r'^Lemma (c\d\d_\w+)(.*?)\n?Proof', open(path).read(), re.S | re.M):
        name, rest = m.groups()
        assert name not in lemmas, name
        lemmas[name] = rest.rstrip()

for path in sorted(glob.glob(os.path.join(HERE, 'props', 'Props_*.in'))):
    out = []
    for line in open(path):
        m = re.match(r'@(\w+) (\w+)$', line.strip())
        if not m:
            out.append(line)
            continue
        prop, lemma = m.groups()
        out.append('Theorem %s%s\nProof. exact %s. Qed.\nPrint Assumptions %s.\n' % (prop, lemmas[lemma], lemma, prop))
    target = os.path.join(THEORIES, os.path.basename(path)[:-3] + '.v')
    text = ''.join(out)
    if not os.path.exists(target) or open(target).read() != text:
        open(target, 'w').write(text)
