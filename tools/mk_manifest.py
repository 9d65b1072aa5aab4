#!/usr/bin/env python3
"""Regenerates MANIFEST.json and rocq/_CoqProject from the theorem names in rocq/theories/*Props.v."""
import json, re, glob, os
root = os.path.dirname(os.path.dirname(os.path.abspath(__file__)))
thms = {}
for f in sorted(glob.glob(root + '/rocq/theories/*.v')):
    if not f.endswith('Props.v'): continue
    for m in re.finditer(r'^Theorem\s+((C\d+)_\w+)', open(f).read(), re.M):
        thms.setdefault(m.group(2), []).append(m.group(1))
props = [json.loads(l) for l in open(root + '/properties.jsonl')]
notes = json.load(open(root + '/tools/notes.json'))
claims = []
for p in props:
    i = p['id']; n = notes.get(i, {})
    t = thms.get(i, [])
    if not t and not n: continue
    st = n.get('status', 'partial' if any('_partial' in x for x in t) else 'proved')
    claims.append(dict(property=i, status=st, theorems=t, note=n.get('note', '')))
unknown = set(thms) - {p['id'] for p in props}
assert not unknown, unknown
json.dump({'claims': claims}, open(root + '/MANIFEST.json', 'w'), indent=1)
order = open(root + '/rocq/_CoqProject').read().split('\n')[0]
vs = sorted(os.path.basename(f) for f in glob.glob(root + '/rocq/theories/*.v'))
open(root + '/rocq/_CoqProject', 'w').write(order + '\n' + ''.join('theories/%s\n' % v for v in vs))
print(len(claims), 'claims', sum(len(c['theorems']) for c in claims), 'theorems;', 'missing:', [p['id'] for p in props if p['id'] not in {c['property'] for c in claims}])
