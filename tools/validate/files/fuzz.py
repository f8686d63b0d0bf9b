import os, random, shutil, subprocess, sys, itertools
DRV=os.path.abspath('drv')
random.seed(int(sys.argv[1])); N=int(sys.argv[2])
ROOT='/tmp/ffw'; CWD=ROOT+'/w'
NAMES=['a','b','c']
uni=[ '/'.join(p) for n in (1,2,3) for p in itertools.product(NAMES,repeat=n)]
probes=['tmp','tmp/ffw']+['tmp/ffw/'+x for x in NAMES]+['tmp/ffw/w']+['tmp/ffw/w/'+u for u in uni]
def rnd_path():
    n=random.randint(0,5); s=''
    if random.random()<.15: s=random.choice(['/','//'])+'tmp/ffw'+random.choice(['/','/w/','//w/','/w/../',''])
    parts=[random.choice(NAMES+NAMES+['.','..','']) for _ in range(n)]
    s+='/'.join(parts)
    if random.random()<.2: s+=random.choice(['/','//','/.'])
    if random.random()<.03: i=random.randint(0,len(s)); s=s[:i]+'\0'+s[i:]
    # keep inside ROOT: no more than one net '..' above cwd
    d=0
    base = 1 if not s.startswith('/') else None
    q=os.path.normpath(os.path.join(CWD,s.replace('\0','')))
    # conservative: count
    depth=2 if not s.startswith('/') else 0
    for c in s.split('/'):
        if c=='..': depth-=1
        elif c not in('','.'): depth+=1
        if depth<1 and c=='..': return rnd_path()
    if not (q==ROOT or q.startswith(ROOT+'/')): return rnd_path()
    return s
def run(op,p):
    try:
        if op=='save':
            d=os.path.dirname(p)
            if not os.path.isdir(d): os.makedirs(d)
            with open(p,'w') as f: f.write('new')
            return 'OK'
        if op=='makedirs': os.makedirs(p); return 'OK'
        if op=='read':
            with open(p) as f: return 'OK '+f.read()
        if op=='stat':
            import stat
            return 'D' if stat.S_ISDIR(os.stat(p).st_mode) else 'F'
        if op=='split':
            return '|'.join(os.path.split(p))
    except (OSError,ValueError) as e: return type(e).__name__
lines=[];exp=[]
for _ in range(N):
    shutil.rmtree(ROOT,ignore_errors=True); os.makedirs(CWD); os.chdir(CWD)
    ents=['=D','tmp=D','tmp/ffw=D','tmp/ffw/w=D']
    for u in uni:
        full=CWD+'/'+u
        if os.path.isdir(os.path.dirname(full)) and random.random()<.35:
            if random.random()<.6: os.mkdir(full); ents.append('tmp/ffw/w/%s=D'%u)
            else: open(full,'w').write('old'); ents.append('tmp/ffw/w/%s=F'%u)
    op=random.choice(['save','save','save','makedirs','read','stat','split'])
    p=rnd_path()
    while op=='split' and '\0' in p: p=rnd_path()
    r=run(op,p)
    out=[]
    for q in probes:
        q='/'+q
        out.append('D' if os.path.isdir(q) else open(q).read() if os.path.isfile(q) else '-')
    lines.append('\t'.join(['tmp/ffw/w',','.join(ents),op,p.encode('latin1').hex(),','.join(probes)]))
    exp.append((op,p,ents,r+'\t'+','.join(out)))
os.chdir('/tmp')
got=subprocess.run([DRV],input='\n'.join(lines)+'\n',capture_output=True,text=True).stdout.split('\n')
bad=0
from collections import Counter
c=Counter()
for (op,p,ents,e),g in zip(exp,got):
    c[op,e.split('\t')[0].split(' ')[0] if op!='split' else '']+=1
    if e!=g:
        bad+=1
        if bad<6: print(op,repr(p),ents,e,g,sep='\n  ')
print(len(exp),'cases',bad,'bad'); print(c)
