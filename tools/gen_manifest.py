#!/usr/bin/env python3
"""Regenerates /verif/MANIFEST.json from tools/claims.json-like table below; theorem names are found by prefix Cxx_."""
import json, re, glob, os
root=os.path.dirname(os.path.dirname(os.path.abspath(__file__)))
props=[json.loads(l)['id'] for l in open(root+'/properties.jsonl')]
names={p:[] for p in props}
for f in sorted(glob.glob(root+'/rocq/theories/Properties_*.v')):
    for m in re.finditer(r'^Theorem\s+((?:C\d\d_)+)(\w+)', open(f).read(), re.M):
        full=m.group(1)+m.group(2)
        for p in m.group(1).strip('_').split('_'):
            names[p].append(full)
notes=json.load(open(root+'/tools/notes.json'))
claims=[]
for p in props:
    th=names[p]; n=notes.get(p,{})
    st=n.get('status') or ('partial' if (not th or any(t.endswith('_partial') for t in th)) else 'proved')
    claims.append(dict(property=p,status=st,theorems=th,note=n.get('note','') if th else 'not proved yet'))
json.dump({"claims":claims},open(root+'/MANIFEST.json','w'),indent=1)
for c in claims: print(c['property'],c['status'],len(c['theorems']))
