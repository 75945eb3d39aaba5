#!/usr/bin/env python3
"""Mutation testing of the model, in a scratch copy: edits one token of one definition as a realistic bug would, rebuilds, and
records which lemma no longer proves (or that everything still builds).  Usage: mutate.py SEED RESULTS [per_definition] [file ...]"""
import os, re, sys, json, random, subprocess, shutil, bisect, time
SRC=os.environ.get('MUT_SRC','/tmp/scratch/base'); WORK=os.environ.get('MUT_WORK','/tmp/scratch/mut')  # SRC: a built copy of /verif/rocq
SHAPES=os.environ.get('MUT_SHAPES')  # set: drop or exchange items of lists, exchange arguments, change texts instead of single tokens
OPS=[
 (r'\bnegb\b',['id']),
 (r' && ',[' || ']),(r' \|\| ',[' && ']),
 (r'\btrue\b',['false']),(r'\bfalse\b',['true']),
 (r'\bNat\.ltb\b',['Nat.leb']),(r'\bNat\.leb\b',['Nat.ltb']),(r'\bN\.ltb\b',['N.leb']),(r'\bN\.leb\b',['N.ltb']),
 (r'\bdlt\b',['dle']),(r'\bdle\b',['dlt']),(r'<=\?',['<?']),(r'<\?',['<=?']),
 (r'\bNat\.eqb\b',['Nat.leb','(fun a b => negb (Nat.eqb a b))']),
 (r'(?<![\w.%])0(?![\w.])',['1']),(r'(?<![\w.%])1(?![\w.])',['0','2']),(r'(?<![\w.%])2(?![\w.])',['1','3']),
 (r'\bactive\b',['id']),(r'\bfst\b',['snd']),(r'\bsnd\b',['fst']),
 (r'\badd_issue\b',['(fun _ _ r => r)']),(r'\badd_issues_to_map\b',['(fun _ _ r => r)']),
 (r'\bCornerT\b',['LineT']),(r'\bLineT\b',['SurfaceT','CornerT']),(r'\bSurfaceT\b',['LineT','BlockT']),(r'\bBlockT\b',['SurfaceT']),
 (r'\bis_boundary\b',['is_internal']),(r'\bis_internal\b',['is_boundary']),
 (r'\bboundaries\b',['internals','incidences']),(r'\bincidences\b',['embeddings','boundaries']),(r'\bembeddings\b',['incidences']),(r'\binternals\b',['boundaries']),
 (r'\bexistsb\b',['forallb']),(r'\bforallb\b',['existsb']),(r'\bfirstn\b',['skipn']),(r'\bskipn\b',['firstn']),
 (r'\bfilter\b',['(fun _ l => l)']),(r'\brev\b',['id']),
 (r'\bif (?P<c>(?:(?! then |\bif\b).)+) then ',['IFNOT']),
 (r'\bRange\b',['(fun n => Range (pred n))','(fun n => tl (Range n))']),
 (r'\badd32\b',['(fun a b => a)']),(r'\bS (?=[a-z])',['']),
 (r'\bm_corners\b',['m_lines']),(r'\bm_lines\b',['m_surfaces','m_corners']),(r'\bm_surfaces\b',['m_lines']),(r'\bm_blocks\b',['m_surfaces']),
 (r'\banyM\b',['(fun f l => let! b := anyM f l in Ok (negb b))']),
 (r'\bOpenGeodeExn\b',['OtherExn']),(r'\bUB\b',['(Throw OpenGeodeExn)']),
 (r'\bSome (?=[a-z(])',['NONE']),
]
def strip(text):
    """mask comments and strings with spaces, same length"""
    out=list(text); i=0; n=len(text); depth=0
    while i<n:
        if depth==0 and text[i]=='"':
            j=text.index('"',i+1)
            for k in range(i,j+1): out[k]=' ' if text[k]!='\n' else '\n'
            i=j+1; continue
        if text.startswith('(*',i): depth+=1
        if depth>0:
            if text[i]!='\n': out[i]=' '
            if text.startswith('*)',i):
                depth-=1; out[i+1]=' '; i+=2; continue
        i+=1
    return ''.join(out)
def definitions(masked):
    for m in re.finditer(r'^(?:Definition|Fixpoint) (\w+)',masked,re.M):
        e=re.search(r'\.\s*$',masked[m.end():],re.M)
        b=masked.find(':=',m.end())
        yield m.group(1),b,m.end()+e.end()
def shapes(t,ms,a,b):
    """items of list literals dropped or exchanged, two identifier arguments exchanged, texts changed"""
    out=[]; stack=[]
    for i in range(a,b):
        c=ms[i]
        if c in '([{': stack.append((c,i,[]))
        elif c in ')]}':
            if not stack: continue
            o,s,seps=stack.pop()
            if o=='[' and seps:
                cuts=[s]+seps+[i]; items=[t[x+1:y] for x,y in zip(cuts,cuts[1:])]
                for k in range(len(items)):
                    out.append((s,i+1,t[s:i+1],'['+';'.join(items[:k]+items[k+1:])+']'))
                for k in range(len(items)-1):
                    for l in range(k+1,min(k+4,len(items))):
                        if items[k].strip()!=items[l].strip():
                            x=items[:]; x[k],x[l]=x[l],x[k]; out.append((s,i+1,t[s:i+1],'['+';'.join(x)+']'))
        elif c==';' and stack: stack[-1][2].append(i)
    W=r"[A-Za-z_][\w.']*"
    for m in re.finditer(r"(?<![\w.])(%s) (?=(%s) (%s)(?![\w.']))"%(W,W,W),ms[a:b]):
        f,x,y=m.groups()
        if {f,x,y}&{'let','fun','match','with','end','if','then','else','in','return','as','forall','fix'} or x==y: continue
        s=a+m.start(2); e=a+m.end(3); out.append((s,e,t[s:e],y+' '+x))
    for m in re.finditer(r'"([^"]*)"',t[a:b]):
        if m.group(1).strip() and ms[a+m.start()]==' ' and not in_comment(t,a+m.start()): out.append((a+m.start(),a+m.end(),m.group(0),'"'+m.group(1)[1:]+'"'))
    return out
def in_comment(t,i):
    return t.rfind('(*',0,i)>t.rfind('*)',0,i)
def mutants(fname):
    t=open(os.path.join(SRC,'theories',fname)).read(); ms=strip(t)
    for name,a,b in definitions(ms):
        out=[]
        if SHAPES: yield name,shapes(t,ms,a,b),t; continue
        for rx,reps in OPS:
            for m in re.finditer(rx,ms[a:b]):
                for r in reps:
                    s,e=a+m.start(),a+m.end()
                    if r=='IFNOT': new='if negb ('+t[s+3:e-6].strip()+') then '
                    elif r=='NONE': new='(fun _ => None) '
                    else: new=r
                    out.append((s,e,t[s:e],new))
        yield name,out,t
def lemma_at(path,line):
    L=open(path).read().split('\n'); name='?'
    for i in range(min(line,len(L))):
        m=re.match(r'\s*(?:Lemma|Theorem|Example|Definition|Fixpoint|Corollary)\s+(\w+)',L[i])
        if m: name=m.group(1)
    return name
def run(fname,text,timeout=600):
    shutil.rmtree(WORK,ignore_errors=True); subprocess.run(['cp','-a',SRC,WORK],check=True)
    p=os.path.join(WORK,'theories',fname)
    open(p,'w').write(text)
    try: r=subprocess.run(['nice','make','-j2'],cwd=WORK,capture_output=True,text=True,timeout=timeout)
    except subprocess.TimeoutExpired: return 'timeout',[]
    if r.returncode==0: return 'survived',[]
    errs=re.findall(r'File "([^"]+)", line (\d+)',r.stderr)
    bad=[(os.path.basename(f),lemma_at(os.path.join(WORK,f) if not f.startswith('/') else f,int(l))) for f,l in errs if 'Error' in r.stderr]
    if any(f==fname for f,_ in bad): return 'invalid',bad
    if any(f.startswith('Model_') or f in('Types.v','Base.v') for f,_ in bad): return 'invalid',bad
    return 'killed',bad
if __name__=='__main__':
    seed=int(sys.argv[1]); res=sys.argv[2]; per=int(sys.argv[3]) if len(sys.argv)>3 else 2
    files=sys.argv[4:] or sorted(f for f in os.listdir(SRC+'/theories') if f.startswith('Model_') and f.endswith('.v'))
    random.seed(seed); todo=[]
    for f in files:
        for name,out,t in mutants(f):
            random.shuffle(out)
            for k,(s,e,old,new) in enumerate(out[:per]):
                todo.append((k,f,name,s,e,old,new,t))
    random.shuffle(todo); todo.sort(key=lambda x:x[0])
    done=set()
    if os.path.exists(res):
        for l in open(res):
            d=json.loads(l); done.add((d['file'],d['definition'],d['old'],d['new'],d['context']))
    print(len(todo),'mutants')
    for k,f,name,s,e,old,new,t in todo:
        line=t.count('\n',0,s)+1; context=t.split('\n')[line-1].strip()[:160]
        if (f,name,old,new,context) in done: continue
        t0=time.time(); st,bad=run(f,t[:s]+new+t[e:])
        with open(res,'a') as o:
            o.write(json.dumps(dict(file=f,definition=name,line=line,pos=s,old=old,new=new,context=context,status=st,failed=bad[:6],secs=round(time.time()-t0)))+'\n')
