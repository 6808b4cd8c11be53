import os,sys,subprocess,shutil,re,json,glob,time
from concurrent.futures import ThreadPoolExecutor
sys.path.insert(0,'/tmp/mut')
import importlib
mod=importlib.import_module(sys.argv[1])
out=sys.argv[2]
done=set()
if os.path.exists(out):
    done={json.loads(l)['id'] for l in open(out)}
def theorem_at(path,line):
    name='?'
    for i,l in enumerate(open(path),1):
        if i>line: break
        m=re.match(r'\s*(Lemma|Theorem|Example|Corollary|Definition|Fixpoint|Inductive|Record)\s+(\w+)',l)
        if m: name=m.group(2)
    return name
def props(f):
    return re.findall(r'^Theorem (C\d+\w*)',open(f).read(),re.M)
def run(mu):
    i=mu['id']
    d='/tmp/mut/w_'+i
    shutil.rmtree(d,ignore_errors=True)
    subprocess.run(['cp','-a','/tmp/mut/base',d])
    p=d+'/theories/'+mu['file']
    s=open(p).read()
    n=s.count(mu['old'])
    if n!=1 and not mu.get('nth') and not mu.get('all'):
        return dict(mu,status='BAD %d'%n)
    if mu.get('all'): s=s.replace(mu['old'],mu['new'])
    elif mu.get('nth'):
        parts=s.split(mu['old']); k=mu['nth']
        s=mu['old'].join(parts[:k])+mu['new']+mu['old'].join(parts[k:])
    else: s=s.replace(mu['old'],mu['new'])
    open(p,'w').write(s)
    for (f2,o2,n2) in mu.get('also',[]):
        q=d+'/theories/'+f2; s2=open(q).read()
        if s2.count(o2)!=1: return dict(mu,status='BAD also %d'%s2.count(o2))
        open(q,'w').write(s2.replace(o2,n2))
    t=time.time()
    tg=' '.join('theories/%s.vo'%x for x in mu.get('targets',getattr(mod,'TARGETS',[])))
    r=subprocess.run('timeout 2400 make -k -j2 %s 2>&1'%tg,shell=True,cwd=d,capture_output=True,text=True)
    fails=[]
    for m in re.finditer(r'File "\./theories/(\w+\.v)", line (\d+)',r.stdout):
        fails.append(m.group(1)[:-2]+'.'+theorem_at(d+'/theories/'+m.group(1),int(m.group(2))))
    fails=list(dict.fromkeys(fails))
    blocked=[]
    for f in sorted(glob.glob(d+'/theories/Properties_*.v')):
        if not os.path.exists(f+'o') or os.path.getmtime(f+'o')<t-5 and False: blocked+=props(f)
    # a stale vo counts as blocked if make did not rebuild it
    blocked=[]
    for l in r.stdout.splitlines():
        m=re.search(r'theories/(Properties_\w+)\.vo',l)
        if m and ('not remade' in l or 'Error' in l): blocked.append(m.group(1))
    shutil.rmtree(d,ignore_errors=True)
    return dict(mu,status='TIMEOUT' if r.returncode==124 else 'killed' if r.returncode else 'SURVIVED',fails=fails,blocked=sorted(set(blocked)),secs=round(time.time()-t))
todo=[m for m in mod.M if m['id'] not in done]
with ThreadPoolExecutor(2) as ex:
    for res in ex.map(run,todo):
        with open(out,'a') as f: f.write(json.dumps(res)+'\n')
        print(res['id'],res['status'],res.get('fails'),res.get('secs'),flush=True)
