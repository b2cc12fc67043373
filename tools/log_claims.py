import re,glob,json,os,collections
R='/verif/rocq/theories/'
decl=re.compile(r'^\s*(?:Theorem|Lemma|Definition|Fixpoint|Example|Corollary|Record|Inductive|Ltac|Instance|Notation|Fact)\s+"?([A-Za-z_][\w\']*)',re.M)
files={}; imports={}; bodies={}
for f in glob.glob(R+'*.v'):
    b=os.path.basename(f); t=open(f).read(); t=re.sub(r'\(\*.*?\*\)','',t,flags=re.S)
    imports[b]=set(x+'.v' for m in re.findall(r'Require (?:Import |Export )?([^.]*)\.',t) for x in m.split())
    ms=list(decl.finditer(t)); files[b]={}
    for i,m in enumerate(ms):
        e=ms[i+1].start() if i+1<len(ms) else len(t)
        files[b][m.group(1)]=set(re.findall(r"[A-Za-z_][\w']*",t[m.end():e]))
users=collections.defaultdict(set)
for b in files:
    for n,toks in files[b].items():
        for k in toks:
            if k==n: continue
            if k in files[b]: users[(b,k)].add((b,n)); continue
            for i in imports[b]:
                if i in files and k in files[i]: users[(i,k)].add((b,n))
titles={}
for l in open('/verif/properties.jsonl'):
    d=json.loads(l); titles[d['id']]=d['title']
def nearest(b,n):
    seen={(b,n)}; q=collections.deque([(b,n)])
    while q:
        x=q.popleft()
        m=re.match(r'(C\d+)_',x[1])
        if m and m.group(1) in titles and 'Props' in x[0]: return m.group(1),x[1]
        for u in sorted(users[x]):
            if u not in seen: seen.add(u); q.append(u)
    return None
if __name__=='__main__':
    import sys
    out=[];miss=0
    for l in open(sys.argv[1]):
        d=json.loads(l)
        if not d.get('claim'):
            if d['failed'] and d['failed'][0].startswith('first failing: '):
                m=re.match(r'first failing: (\S+) in (\S+)',d['failed'][0])
                r=nearest(m.group(2),m.group(1)) if m else None
                if r: d['claim']='%s: %s'%(r[0],titles[r[0]])
                else: miss+=1; print(d['failed'],file=sys.stderr)
            elif d['failed']:
                m=re.search(r'(C\d+)_',' '.join(d['failed']))
                if m and m.group(1) in titles: d['claim']='%s: %s'%(m.group(1),titles[m.group(1)])
                else: miss+=1; print(d['failed'],file=sys.stderr)
            elif d['tightened']:
                m=re.search(r'(C\d+)_',' '.join(d['tightened']))
                d['claim']='%s: %s'%(m.group(1),titles[m.group(1)]) if m and m.group(1) in titles else 'none'
            else: d['claim']='none: '+d['why_false']
        out.append(json.dumps(d))
    print(miss,file=sys.stderr)
    open(sys.argv[2],'w').write('\n'.join(out)+'\n')
