import re,random,os,sys,subprocess,shutil,json,time
from concurrent.futures import ThreadPoolExecutor
seed=int(sys.argv[1]); count=int(sys.argv[2]); out=sys.argv[3]
files=sys.argv[4].split(',')
B='/tmp/mut/base/theories/'
def spans(s):
    # body regions: strip comments, proofs
    mask=[True]*len(s); d=0; i=0
    while i<len(s):
        if s.startswith('(*',i): d+=1; mask[i]=mask[i+1]=False; i+=2; continue
        if s.startswith('*)',i): d-=1; mask[i]=mask[i+1]=False; i+=2; continue
        if d: mask[i]=False
        i+=1
    for m in re.finditer(r'\bProof\..*?\b(Qed|Defined)\.',s,re.S):
        for k in range(m.start(),m.end()): mask[k]=False
    for m in re.finditer(r'^(Lemma|Theorem|Example|From|Section|Context|Arguments|End|Local|Notation|Definition TRANSCRIPT|Infix|Add|Ltac|Print|Delimit|Bind|Declare|Opaque|Global|Variable|Hypothesis)\b.*?\.\s',s,re.S|re.M):
        for k in range(m.start(),m.end()): mask[k]=False
    return mask
ops=[(r' \+ ',' - '),(r' - ',' + '),(r' \* ',' + '),(r'<\?','<=?'),(r'=\?','<=?'),(r'<=\?','<?'),(r'\bs0\b','s1'),(r'\bs1\b','s0'),
 (r'negb \(','('),(r' \|\| ',' && '),(r' && ',' || '),(r'\btrue\b','false'),(r'\bfalse\b','true'),
 (r'b_ "(\w)','b_ "q\\1'),(r'\bw1\b','w2'),(r'\bw2\b','w1'),(r'\bw3\b','w4'),(r'\bw4\b','w3'),(r'\bX\b','Y'),(r'\bY\b','X'),(r'\bX1\b','X'),(r'\bpf_X\b','pf_Y'),(r'\bpf_A\b','pf_B'),
 (r'\bpf_C\b','pf_D'),(r'\bget_n\b','get_m'),(r'\bget_m\b','get_n'),(r'\bget_G\b','get_U'),(r'\bget_U\b','get_G'),(r'\bz_A\b','z_C'),(r'\bz_C\b','z_A'),(r'\bA\b','B'),(r'\bC\b','D'),(r'\brho\b','(tl rho)'),
 (r'\bleft\b','right'),(r'\bright\b','left'),(r'\bmid\b','left'),(r'\bfirstn\b','skipn'),(r'\bskipn\b','firstn'),(r'\bM\b','(tl M)'),(r'\bts\b','(rev ts)'),(r'\bsigma\b','a'),
 (r'\bpadd\b','psub'),(r'\bpsub\b','padd'),(r'\bmap\b','id map'),(r'(?<![\w.%"])([0-9]+)(?![\w."])',lambda m:str(int(m.group(1))+1)),(r'(?<![\w.%"])([1-9][0-9]*)(?![\w."])',lambda m:str(int(m.group(1))-1)),
 (r'\bst\b','st0'),(r'\bconcat\b','rev concat'),(r'\brev\b','id'),(r'\br_A\b','r_B'),(r'\br_C\b','r_D'),(r'\br1\b','r'),(r'\br\b','r1'),(r'\bG1\b','G'),(r'\bget_G1\b','get_G'),(r'\boffset\b','J'),(r'\bxi\b','s1'),
 (r'ConstantTime','VariableTime'),(r'\bis_M1\b','is_M'),(r'\bl\b','(l + 1)'),(r'\bindex\b','(index + 1)'),(r'Err (\w+)','Err InvalidChallenge'),(r'Some','Some')]
cands=[]
for f in files:
    s=open(B+f).read(); mask=spans(s)
    for pat,rep in ops:
        for m in re.finditer(pat,s):
            if not all(mask[m.start():m.end()]): continue
            new=m.expand(rep) if isinstance(rep,str) else rep(m)
            if new==m.group(0): continue
            cands.append((f,m.start(),m.end(),m.group(0),new))
random.seed(seed); random.shuffle(cands)
print(len(cands),'candidates',flush=True)
done=set()
if os.path.exists(out): done={(json.loads(l)['file'],json.loads(l)['pos'],json.loads(l)['new']) for l in open(out)}
def defn(s,pos):
    n='?'
    for m in re.finditer(r'^\s*(?:Definition|Fixpoint|Record|Inductive)\s+(\w+)',s[:pos],re.M): n=m.group(1)
    return n
def run(c):
    f,a,b,old,new=c
    if (f,a,new) in done: return None
    k='auto_%s_%d_%d'%(f[:-2],a,abs(hash(new))%1000)
    d='/tmp/mut/w_'+k; s=open(B+f).read()
    # first: does the model file itself still typecheck?
    t0='/tmp/mut/t_'+k; os.makedirs(t0,exist_ok=True)
    s2=s[:a]+new+s[b:]
    open(t0+'/'+f,'w').write(s2)
    r=subprocess.run('timeout 120 coqc -Q %s Verif -Q . Verif -o %s/o.vo %s'%(B,t0,t0+'/'+f) if False else 'cd %s && for x in %s*.vo; do ln -s $x .; done; rm -f %so; timeout 120 coqc -Q . Verif %s'%(t0,B,f,f),shell=True,capture_output=True,text=True)
    shutil.rmtree(t0,ignore_errors=True)
    line=s[:a].count('\n')+1
    ent=dict(file=f,pos=a,line=line,definition=defn(s,a),old=old,new=new,context=s.split('\n')[line-1].strip())
    if r.returncode: return dict(ent,status='invalid')
    shutil.rmtree(d,ignore_errors=True); subprocess.run(['cp','-a','/tmp/mut/base',d])
    open(d+'/theories/'+f,'w').write(s2)
    t=time.time()
    r=subprocess.run('ulimit -v 8000000; timeout 1500 make -j1 2>&1',shell=True,cwd=d,capture_output=True,text=True)
    fails=[]
    for m in re.finditer(r'File "\./theories/(\w+\.v)", line (\d+)',r.stdout):
        n='?'
        for i,l in enumerate(open(d+'/theories/'+m.group(1)),1):
            if i>int(m.group(2)): break
            q=re.match(r'\s*(Lemma|Theorem|Example|Corollary|Definition|Fixpoint)\s+(\w+)',l)
            if q: n=q.group(2)
        fails.append(m.group(1)[:-2]+'.'+n)
    shutil.rmtree(d,ignore_errors=True)
    st='TIMEOUT' if r.returncode==124 else 'killed' if r.returncode and fails else 'ERR' if r.returncode else 'SURVIVED'
    return dict(ent,status=st,fails=list(dict.fromkeys(fails)),secs=round(time.time()-t))
valid=0
with ThreadPoolExecutor(3) as ex:
    futs=[ex.submit(run,c) for c in cands[:count]]
    for fu in futs:
        r=fu.result()
        if r is None: continue
        open(out,'a').write(json.dumps(r)+'\n')
        if r['status']!='invalid': print(r['status'],r['file'],r['line'],r['definition'],repr(r['old']),'->',repr(r['new']),'|',r['context'][:100],r['fails'],r['secs'],flush=True)
