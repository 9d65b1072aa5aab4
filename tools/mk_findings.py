#!/usr/bin/env python3
"""Rewrite the findings section of DESIGN.md from the property statements."""
import json,re,os
V=os.path.dirname(os.path.dirname(os.path.abspath(__file__)))
out=[]
for l in open(V+'/properties.jsonl'):
    d=json.loads(l); s=d['statement']; got=False
    for m in re.finditer(r'\(?[Ff]indings?: ',s):
        i=m.end(); depth=1 if m.group(0)[0]=='(' else 0
        j=i
        while j<len(s):
            if s[j]=='(': depth+=1
            if s[j]==')':
                depth-=1
                if depth==0 and m.group(0)[0]=='(': break
            j+=1
        out.append(f"* {d['id']}: {s[i:j].strip()}"); got=True
    if not got and 'finding' in s.lower():
        for sent in re.split(r'(?<=[.;]) ',s):
            if '(finding' in sent: out.append(f"* {d['id']}: {sent.strip()}")
t=open(V+'/DESIGN.md').read(); h='## Findings'
i=t.index(h); i=t.index('\n\n',i)+2
open(V+'/DESIGN.md','w').write(t[:i]+'\n'.join(out)+'\n')
print(len(out))
