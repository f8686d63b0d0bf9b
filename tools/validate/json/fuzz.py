import json,random,subprocess,struct,sys
random.seed(int(sys.argv[1]))
def rv(d=0):
    k=random.randrange(9 if d<4 else 6)
    if k==0: return random.choice([None,True,False])
    if k==1: return random.choice([0,1,-1,10,random.randrange(-10**6,10**20),-10**30])
    if k==2: return random.choice([0.0,-0.0,1.5,float('inf'),float('-inf'),struct.unpack('<d',struct.pack('<Q',random.getrandbits(64)))[0],random.random()*10**random.randrange(-20,20),5e-324,1.7976931348623157e308])
    if k in(3,4,5): return text(6)
    if k==6: return [rv(d+1) for _ in range(random.randrange(4))]
    return {rv_s():rv(d+1) for _ in range(random.randrange(4))}
def rv_s(): return text(3)
def char():
    while True:
        c=random.choice([random.randrange(128),random.randrange(256),random.randrange(0x800),random.randrange(0x10000),random.randrange(0x110000)])
        if not 0xd800<=c<0xe000 or random.random()<.3: return chr(c)
def text(n): return ''.join(char() for _ in range(random.randrange(n)))
alph='{}[]:,"\\u0019aefntrl-+.eE \n\t/truefalsenullNaNInfinity\x00\x1f\x7f\xe9\u20ac\U0001f600\ufeff'
halves=['\\ud83d','\\ude00','\\udcc3','\\udca9','\\uDC80','\\u00e9']
texts=[]
for i in range(6000):
    t=json.dumps(rv(),indent=random.choice([None,1,4]),ensure_ascii=random.random()<.5)
    for _ in range(random.choice([0,0,0,1,1,2,4])):
        p=random.randrange(len(t)+1)
        c=random.random()
        if c<.4: t=t[:p]+t[p+1:]
        elif c<.8: t=t[:p]+random.choice(random.choice([alph,alph,halves]))+t[p:]
        else:
            q=random.randrange(len(t)+1); t=t[:p]+t[min(p,q):max(p,q)]+t[p:]
    texts.append(t)
for i in range(3000):
    s=random.choice(['','-','--','+'])+random.choice(['0','00','1','12','','0123'])+random.choice(['','.','.5','.50','.0','..'])+random.choice(['','e','e5','E+5','e-400','e400','e-','E-03','e310','e-330'])
    texts.append(random.choice(['%s',' [%s]','{"a":%s}','%s '])%s)
def bits(v):
    if isinstance(v,float): return ('f',struct.pack('<d',v)) if v==v else 'nan'
    if isinstance(v,list): return [bits(x) for x in v]
    if isinstance(v,dict): return [(k,bits(x)) for k,x in v.items()]
    return (type(v).__name__,v)
def lat(v):
    if isinstance(v,str): return not any(0xd800<=ord(c)<0xe000 for c in v)
    if isinstance(v,list): return all(map(lat,v))
    if isinstance(v,dict): return all(lat(k) and lat(x) for k,x in v.items())
    return True
import re
texts=[t for t in texts if not re.search(r'[eE][-+]?[0-9]{4}',t)]
def enc(t):
    b=t.encode('utf-8','replace')
    if random.random()<.1:
        p=random.randrange(len(b)+1); b=b[:p]+bytes([random.randrange(128,256)])+b[p+random.randrange(2):]
    return b
texts=[enc(t) for t in texts]
inp='\n'.join(t.hex() for t in texts)+'\n'
out=subprocess.run(['./drv'],input=inp,capture_output=True,text=True).stdout.split('\n')
from collections import Counter
cnt=Counter()
for t,o in zip(texts,out):
    try: v=json.loads(t.decode('utf-8')); r='OK'
    except ValueError: r='VALUE'
    k=o.split(' ')[0]; cnt[(r,k)]+=1
    if k=='UNM':
        if r=='OK' and lat(v): print('DIFF',t,r,o)
        if r=='VALUE' and not re.search(rb'\\u[dD]',t): print('DIFF',t,r,o)
        continue
    if r!=k: print('DIFF',repr(t),r,o); continue
    if r=='OK':
        a=bytes.fromhex(o.split(' ')[1]).decode('ascii'); b=bytes.fromhex(o.split(' ')[2]).decode('ascii')
        if bits(json.loads(a))!=bits(v) or bits(json.loads(b))!=bits(v): print('VAL',repr(t),a)
        if (a!=json.dumps(v) or b!=json.dumps(v,indent=4)): print('DUMP',repr(t),repr(a),repr(json.dumps(v)))
        c=bytes.fromhex(o.split(' ')[3])
        if c!=str(v).encode('utf-8','surrogateescape'): print('STR',repr(t),c,str(v))
print(cnt)
