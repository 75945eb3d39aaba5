#!/usr/bin/env python3
"""Adds the hand-written bugs (results of a bugs run: file, definition, what, claim, failed) to seeded/LOG.jsonl."""
import sys, json, os
here=os.path.dirname(os.path.abspath(__file__))
src=sys.argv[1]
sys.argv=['log_mutants.py','/dev/null']
exec(open(os.path.join(here,'log_mutants.py')).read().replace("__file__","'%s'"%os.path.join(here,'log_mutants.py')))
n=0
with open(path,'a') as f:
    for l in open(src):
        x=json.loads(l); d=x['file'][:-2]+'.'+x['definition']; e=x['what']
        if (d,e) in done or x['status']!='killed':
            if x['status']=='survived': print('SURVIVED',d,e)
            continue
        stop=[(a[:-2],b) for a,b in x['failed']]; t=sorted(set(sum((dependents(s) for s in stop),[])))
        f.write(json.dumps({'definition':d,'edit':e,'claim':x['claim'],'build_stopped_at':[a+'.'+b for a,b in stop],'failed':t[:12]+(['... %d more'%(len(t)-12)] if len(t)>12 else []),'tightened':[]})+'\n'); n+=1
print(n,'bugs added')
