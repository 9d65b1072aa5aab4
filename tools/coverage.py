#!/usr/bin/env python3
"""List functions of /repo/src/pyhipp whose lines are not cited by any comment of the model files."""
import ast, os, re, glob, sys, collections
root='/repo/src/pyhipp'
cited=collections.defaultdict(set)
for f in glob.glob('/verif/rocq/theories/*.v'):
    t=open(f).read()
    for m in re.finditer(r'([\w/]+\.py)((?:[:,; ]|\s|and|lines?|\[[^\]]*\])*)((?:\d+(?:-\d+)?)(?:(?:[,; ]|\s|and|\[[^\]]*\])*\d+(?:-\d+)?)*)',t):
        for a,b in re.findall(r'(\d+)(?:-(\d+))?',m.group(3)):
            a=int(a);b=int(b) if b else a
            if b<a or b-a>600: continue
            cited[m.group(1)].update(range(a,b+1))
tot=un=0
for d,_,fs in os.walk(root):
    for fn in sorted(fs):
        if not fn.endswith('.py'):continue
        p=os.path.join(d,fn);rel=os.path.relpath(p,root)
        lines=set()
        for k,v in cited.items():
            if rel.endswith(k.lstrip('/')) and (rel==k or rel.endswith('/'+k) or k.endswith('/'+rel)): lines|=v
            if k.endswith(rel): lines|=v
        tree=ast.parse(open(p).read())
        def walk(n,pre):
            global tot,un
            for c in ast.iter_child_nodes(n):
                if isinstance(c,(ast.FunctionDef,)):
                    body=range(c.lineno,c.end_lineno+1)
                    tot+=1
                    if not any(l in lines for l in body):
                        un+=1;print(f'{rel}:{c.lineno}-{c.end_lineno} {pre}{c.name}')
                elif isinstance(c,ast.ClassDef): walk(c,pre+c.name+'.')
                else: walk(c,pre)
        walk(tree,'')
print(tot,un)
