#!/bin/sh
# Print Assumptions of every theorem of MANIFEST.json (after a build); prints only what is not closed.
cd "$(dirname "$0")/../rocq/theories"
t=$(mktemp -d)
python3 - "$t" <<'P'
import json,sys,glob,re
m=json.load(open('../../MANIFEST.json'))
w={}
for f in glob.glob('Properties_*.v'):
    for x in re.finditer(r'^Theorem\s+(\w+)',open(f).read(),re.M): w[x.group(1)]=f[:-2]
names=sorted({t for c in m['claims'] for t in c['theorems']})
with open(sys.argv[1]+'/All.v','w') as o:
    o.write('From Verif Require '+' '.join(sorted(set(w.values())))+'.\n')
    for n in names: o.write('Print Assumptions %s.%s.\n'%(w[n],n))
print(len(names),'theorems')
P
coqc -Q . Verif "$t/All.v" | sort | uniq -c
rm -rf "$t"
