#!/usr/bin/env python3
"""Adds one line per finished mutant (results of mutate.py) to seeded/LOG.jsonl.  The theorems that failed are those of
MANIFEST.json whose proof uses, directly or not, the lemma at which the build stopped (references read from the .glob files)."""
import json, os, re, sys, glob, collections
here=os.path.dirname(os.path.abspath(__file__)); root=os.path.join(here,'..')
T=os.path.join(root,'rocq','theories')
results=sys.argv[1]
refs=collections.defaultdict(set)
for g in glob.glob(os.path.join(T,'*.glob')):
    mod=os.path.basename(g)[:-5]; defs=[]; rs=[]
    for l in open(g,errors='replace'):
        m=re.match(r'^(def|thm|prf|ind|rec|ax|coe|class|inst|not|proj|constr) (\d+):\d+ <> (\S+)',l)
        if m and m.group(1) in('def','thm','prf','ind','rec'): defs.append((int(m.group(2)),m.group(3)))
        m=re.match(r'^R(\d+):\d+ Verif\.(\S+) <> (\S+) ',l)
        if m: rs.append((int(m.group(1)),m.group(2),m.group(3)))
    defs.sort()
    import bisect
    pos=[d[0] for d in defs]
    for p,f,n in rs:
        i=bisect.bisect_right(pos,p)-1
        if i>=0: refs[(mod,defs[i][1])].add((f,n))
users=collections.defaultdict(set)
for a,bs in refs.items():
    for b in bs: users[b].add(a)
manifest=json.load(open(os.path.join(root,'MANIFEST.json')))
thm={t:c['property'] for c in manifest['claims'] for t in c['theorems']}
titles={json.loads(l)['id']:json.loads(l)['title'] for l in open(os.path.join(root,'properties.jsonl'))}
def dependents(start):
    seen={start}; todo=[start]
    while todo:
        x=todo.pop()
        for u in users.get(x,()):
            if u not in seen: seen.add(u); todo.append(u)
    return sorted({n for _,n in seen if n in thm})
path=os.path.join(root,'seeded','LOG.jsonl')
old=[json.loads(l) for l in open(path)] if os.path.exists(path) else []
done={(x.get('definition'),x.get('edit')) for x in old}
notes=json.load(open(os.path.join(here,'survivors.json'))) if os.path.exists(os.path.join(here,'survivors.json')) else {}
out=old[:]
for l in open(results):
    x=json.loads(l)
    if x['status'] in('invalid','timeout'): continue
    d=x['file'][:-2]+'.'+x['definition']; e='%s -> %s in "%s"'%(x['old'].strip(),x['new'].strip(),x['context'].strip())
    if (d,e) in done: continue
    if x['status']=='killed':
        stop=[(f[:-2],n) for f,n in x['failed']]
        t=sorted(set(sum((dependents(s) for s in stop),[])))
        props=sorted({p for n in t for p in re.findall(r'C\d\d',n)})
        out.append({'definition':d,'edit':e,'claim':'; '.join('%s (%s)'%(p,titles[p]) for p in props[:4]) or 'supporting lemma','build_stopped_at':[f+'.'+n for f,n in stop],'failed':t[:12]+(['... %d more'%(len(t)-12)] if len(t)>12 else []),'tightened':[]})
    else:
        k=d+': '+x['old']+' -> '+x['new']
        if k not in notes: print('no note for survivor',k,x['context'][:100]); continue
        out.append({'definition':d,'edit':e,'claim':notes[k]['claim'],'failed':notes[k].get('failed',[]),'tightened':notes[k].get('tightened',[])})
with open(path,'w') as f:
    for x in out: f.write(json.dumps(x)+'\n')
print(len(out)-len(old),'added',len(out),'total')
