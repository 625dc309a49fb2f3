#!/usr/bin/env python3
"""Seeded-bug runner.  Usage: mutate.py spec.py ; spec.py defines M = [(file, old, new, definition, claim_ids, why)].
Works on a scratch copy of rocq/ under /tmp/mut; appends one JSON line per attempt to the file given by OUT."""
import sys, os, re, subprocess, json, shutil
spec = sys.argv[1]; out = sys.argv[2]
ns = {}; exec(open(spec).read(), ns)
M = ns['M']
REF, MUT = '/tmp/mutref_'+os.path.basename(spec).split('.')[0], '/tmp/mut_'+os.path.basename(spec).split('.')[0]
def sh(c): return subprocess.run(c, shell=True, capture_output=True, text=True)
sh(f'rm -rf {REF} {MUT}; mkdir -p {REF}; cd /verif && git archive HEAD rocq | tar x -C {REF}')
r = sh(f'cd {REF}/rocq && coq_makefile -f _CoqProject -o Makefile && make -j3')
assert r.returncode == 0, r.stderr[-2000:]
def thm_at(path, line):
    name = None
    for i, l in enumerate(open(path), 1):
        if i > line: break
        m = re.match(r'\s*(?:Theorem|Lemma|Example|Corollary|Definition|Fixpoint|Fact|Remark)\s+([\w\']+)', l)
        if m: name = m.group(1)
    return name
for (f, old, new, d, claims, why) in M:
    sh(f'rm -rf {MUT}; cp -a {REF} {MUT}')
    p = f'{MUT}/rocq/theories/{f}'
    s = open(p).read()
    if s.count(old) != 1:
        print('BAD SPEC', f, d, s.count(old), repr(old)); continue
    open(p, 'w').write(s.replace(old, new))
    r = sh(f'cd {MUT}/rocq && timeout 3000 make -k -j3 COQC=/verif/tools/tcoqc.sh')
    fails = []
    for m in re.finditer(r'File "\./theories/(\w+)\.v", line (\d+)[^\n]*\n(Error[^\n]*|)', r.stderr):
        if 'Warning' in r.stderr[m.end():m.end()+20] : pass
        if m.group(3).startswith('Error'):
            fails.append(f'{m.group(1)}.{thm_at(f"{MUT}/rocq/theories/{m.group(1)}.v", int(m.group(2)))}')
    for m in re.finditer(r'TIMEOUT theories/(\w+)\.v', r.stderr): fails.append(m.group(1) + ' (a proof no longer ends within 240 s)')
    ok = r.returncode == 0
    unb = sorted(x[:-2] for x in os.listdir(f'{MUT}/rocq/theories') if x.startswith('Props') and x.endswith('.v')
              and not (os.path.exists(f'{MUT}/rocq/theories/{x}o') and os.path.getmtime(f'{MUT}/rocq/theories/{x}o') > os.path.getmtime(p)-0))
    rec = {'definition': f'{f}:{d}', 'edit': f'{old.strip()}  ==>  {new.strip()}', 'claim_broken': f'{claims}: {why}',
           'survived': ok, 'theorems_failed': sorted(set(fails)), 'theorems_tightened': []}
    print(('SURVIVED ' if ok else 'killed   '), claims, f, d, fails, flush=True)
    with open(out, 'a') as g: g.write(json.dumps(rec)+'\n')
