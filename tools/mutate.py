#!/usr/bin/env python3
"""Try the theorems against a wrong program.

    mutate.py NAME          run the mutation NAME of tools/mutations.py

In a scratch copy of rocq/ (outside /verif) the edit is made and everything is
rebuilt.  A proof that no longer goes through is replaced by Admitted there, and
the build goes on; a property theorem has failed if Print Assumptions lists such
a lemma beneath it (or it was itself replaced).  The result is printed as JSON.
MUT_TARGETS names the files to build if not all.
"""
import json, os, re, resource, shutil, subprocess, sys, time
here = os.path.dirname(os.path.abspath(__file__))
sys.path.insert(0, here)
from mutations import MUTATIONS
BASE = os.environ.get('MUT_BASE', '/tmp/mut/base')
TARGETS = [f'theories/{t}.vo' for t in os.environ.get('MUT_TARGETS', '').split()]
LIMIT = float(os.environ.get('MUT_LIMIT', '1500'))
START = re.compile(r'^\s*(?:#\[[^\]]*\]\s*)?(?:Local |Global )?(Lemma|Theorem|Example|Corollary|Fact|Remark|Instance|Definition|Program Definition|Fixpoint)\s+([\w\']+)')

MEMORY = 7 << 30

def admit_examples(path):
    """leave out the proofs of the examples of a file"""
    s = open(path).read()
    t = re.sub(r'(^\s*Example\b.*?)Proof\..*?Qed\.', lambda g: g.group(1) + 'Proof. Admitted.' + '\n' * g.group(0)[len(g.group(1)):].count('\n'), s, flags=re.M | re.S)
    open(path, 'w').write(t)
    return s != t

def run(name):
    m = MUTATIONS[name]
    work = '/tmp/mut/' + name
    shutil.rmtree(work, ignore_errors=True)
    subprocess.check_call(['cp', '-a', BASE, work])
    path = f'{work}/theories/{m["file"]}.v'
    s = open(path).read()
    assert s.count(m['old']) == m.get('count', 1), (name, s.count(m['old']))
    open(path, 'w').write(s.replace(m['old'], m['new']))
    broken, stuck, t0, notes = [], set(), time.time(), []
    while True:
        if time.time() - t0 > LIMIT: notes.append('time limit'); break
        p = subprocess.run(['make', '-k', '-j3', 'COQC=timeout 400 coqc'] + TARGETS, cwd=work, capture_output=True, text=True,
                           preexec_fn=lambda: resource.setrlimit(resource.RLIMIT_AS, (MEMORY, MEMORY)))
        out = p.stdout + p.stderr
        if p.returncode == 0: break
        errs = re.findall(r'File "\./theories/(\w+)\.v", line (\d+), characters [\d-]+:\nError', out)
        progress = False
        for f, line in errs:
            line = int(line)
            fp = f'{work}/theories/{f}.v'
            lines = open(fp).read().split('\n')
            start = None
            for i in range(line - 1, -1, -1):
                g = START.match(lines[i])
                if g: start = i; break
            if start is None: stuck.add(f); continue
            # end of the proof
            end = None
            for i in range(max(start, line - 1), len(lines)):
                if re.search(r'(Qed|Defined)\.\s*$', lines[i]): end = i; break
            pr = None
            for i in range(start, (end or start) + 1):
                if re.search(r'\bProof\b', lines[i]): pr = i; break
            if end is None or pr is None or pr > line - 1:
                stuck.add(f); notes.append(f'{f}:{line} not in a proof'); continue
            head = lines[pr][:lines[pr].index('Proof')]
            lines[pr:end + 1] = [head + 'Proof. Admitted.'] + [''] * (end - pr)
            open(fp, 'w').write('\n'.join(lines))
            broken.append(f'{f}.{g.group(2)}'); progress = True
        # examples whose computation does not end
        for f in re.findall(r'theories/(Props_\w+)\.vo\] (?:Error \d+|Killed)', out):
            if f not in [e[0] for e in errs] and admit_examples(f'{work}/theories/{f}.v'):
                notes.append(f'examples of {f} do not compute'); progress = True
        if not progress:
            notes.append('no progress: ' + out[-600:] if not errs else 'stuck in ' + ', '.join(sorted(stuck))); break
    # property theorems resting on a replaced lemma
    failed, unbuilt = [], []
    names = {b.split('.')[1] for b in broken}
    for f in sorted(os.listdir(work + '/theories')):
        if not (f.startswith('Props_') and f.endswith('.v')): continue
        text = open(f'{work}/theories/{f}').read()
        thms = re.findall(r'^Print Assumptions (\w+)\.', text, re.M)
        if TARGETS and f'theories/{f}o' not in TARGETS: continue
        if not os.path.exists(f'{work}/theories/{f}o'):
            unbuilt.append(f[:-2]); continue
        if os.path.getmtime(f'{work}/theories/{f}o') < t0: continue
        probe = f'From Verif Require Import {f[:-2]}.\n' + '\n'.join(f'Print Assumptions {t}.' for t in thms)
        open(f'{work}/probe.v', 'w').write(probe)
        o = subprocess.run(['coqc', '-Q', 'theories', 'Verif', 'probe.v'], cwd=work, capture_output=True, text=True)
        parts = re.split(r'(?=Closed under the global context|^Axioms:)', o.stdout, flags=re.M)
        parts = [x for x in parts if x.strip()]
        for t, x in zip(thms, parts):
            if any(re.search(r'\b%s\b' % re.escape(b), x) for b in names) : failed.append(t)
        if len(parts) != len(thms): notes.append(f'{f}: {len(parts)} answers for {len(thms)} theorems {o.stderr[-200:]}')
    res = dict(mutation=name, broken=broken, failed=failed, unbuilt=unbuilt, notes=notes, seconds=int(time.time() - t0))
    if not os.environ.get('MUT_KEEP'): shutil.rmtree(work, ignore_errors=True)
    return res

if __name__ == '__main__':
    for name in sys.argv[1:]:
        print(json.dumps(run(name)), flush=True)
