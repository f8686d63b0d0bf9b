import json, random, re, struct, subprocess, sys, unicodedata
from collections import Counter
random.seed(int(sys.argv[1])); N = int(sys.argv[2])
DIGITS = [chr(c) for c in range(sys.maxunicode + 1) if chr(c).isdecimal()]
SPACES = [chr(c) for c in range(sys.maxunicode + 1) if chr(c).isspace()]
def char():
    k = random.randrange(10)
    if k < 3: return random.choice('0123456789')
    if k < 4: return random.choice(DIGITS)
    if k < 6: return random.choice(SPACES)
    if k < 9: return random.choice('+-._eE[]:xXaAfFinfINFscale')
    while True:
        c = chr(random.choice([random.randrange(256), random.randrange(0x3000), random.randrange(0x110000)]))
        if not 0xd800 <= ord(c) < 0xe000: return c
def blanks(): return ''.join(random.choice(SPACES) for _ in range(random.choice([0, 0, 0, 1, 2])))
def digits(): return ''.join(random.choice(['0', '1', '9', '_', random.choice(DIGITS)]) if random.random() < .5 else random.choice('0123456789') for _ in range(random.choice([1, 1, 2, 3])))
def sign(): return random.choice(['', '', '', '+', '-'])
def number(): return sign() + random.choice([digits(), digits() + '.' + digits(), '.' + digits(), digits() + '.', digits() + random.choice('eE') + sign() + digits()[:2], random.choice(['inf', 'nan', 'Infinity', 'iNf', 'NaN', 'infinit'])])
def edit(s):
    for _ in range(random.choice([0, 0, 0, 0, 1, 1, 2])):
        p = random.randrange(len(s) + 1)
        s = random.choice([s[:p] + s[p + 1:], s[:p] + char() + s[p:], s[:p] + char() + s[p + 1:]])
    return s
def tag():
    return '[' + blanks() + random.choice(['scale', 'scale', 'scale', 'Scale', 'x-1', ''.join(char() for _ in range(3))]) + blanks() + ':' + blanks() + random.choice([number().lstrip('+-'), digits(), ''.join(char() for _ in range(3))]) + blanks() + ']'
GEN = {'i': lambda: blanks() + sign() + digits() + blanks(), 'f': lambda: blanks() + number() + blanks(),
       'x': lambda: random.choice(['', '', '_']) + ''.join(random.choice('0123456789abcdefABCDEF_' + random.choice(DIGITS)) for _ in range(random.randrange(9))) + blanks(),
       's': lambda: blanks() + char() + blanks() + char() + blanks(),
       'v': lambda: '.'.join(random.choice(['', '', '', blanks(), sign()]) + digits() + random.choice(['', '', blanks()]) for _ in range(random.choice([1, 2, 2, 3, 3, 4]))),
       't': lambda: random.choice(['', 'a', '[', ':']) + tag() + random.choice(['', '', '', tag(), ']', 'b']),
       'l': lambda: ''.join(char() for _ in range(4))}
GEN['n'] = GEN['t']
VERSION = re.compile(r"^\d+.\d+")
TAG = re.compile(r"\[\s*[\w0-9-]+\s*:\s*[\w0-9.\s]+\s*\]")
def version(s):
    if not VERSION.match(s): raise ValueError
    parts = s.split('.')
    if not 2 <= len(parts) <= 3: raise ValueError
    return [int(x) for x in parts] + [0] * (3 - len(parts))
def tags(s):
    r = {}
    for t in TAG.findall(s):
        n, v = t[1:-1].split(':'); n = n.strip(); v = v.strip()
        if n in r or n != 'scale': raise ValueError
        r[n] = float(v)
    return r
REF = {'i': int, 'f': float, 'x': lambda s: int('0x' + s, 16), 's': lambda s: len(s.strip()), 'v': version, 't': tags,
       'n': lambda s: [[len(y) for y in t[1:-1].split(':')] for t in TAG.findall(s)], 'l': len}
def bits(v):
    if isinstance(v, float): return ('f', struct.pack('<d', v)) if v == v else 'nan'
    if isinstance(v, list): return [bits(x) for x in v]
    if isinstance(v, dict): return [(k, bits(x)) for k, x in v.items()]
    return (type(v).__name__, v)
cases = []
for k in GEN:
    for _ in range(N):
        b = edit(GEN[k]()).encode()
        if random.random() < .1:
            p = random.randrange(len(b) + 1); b = b[:p] + bytes([random.randrange(128, 256)]) + b[p + random.randrange(2):]
        cases.append((k, b))
# every character once, as a digit, a blank and a part of a tag
for c in range(sys.maxunicode + 1):
    if 0xd800 <= c < 0xe000: continue
    if c < 0x3100 or chr(c).isalnum() and c % 7 == 0 or chr(c).isdecimal() or chr(c).isspace() or c % 97 == 0:
        cases += [('f', ('1' + chr(c)).encode()), ('n', ('[a' + chr(c) + ':1]').encode()), ('n', ('[' + chr(c) + ':1' + chr(c) + ']').encode())]
out = subprocess.run(['./drv'], input='\n'.join(k + b.hex() for k, b in cases) + '\n', capture_output=True, text=True).stdout.split('\n')
cnt = Counter(); bad = 0
for (k, b), o in zip(cases, out):
    s = b.decode('utf-8', 'surrogateescape')
    try: r = ('OK', bits(REF[k](s)))
    except ValueError: r = ('VALUE',)
    m = ('OK', bits(json.loads(o[3:]))) if o.startswith('OK') else ('VALUE',)
    cnt[(k, r[0])] += 1
    if r != m:
        bad += 1
        if bad < 20: print('DIFF', k, repr(s), r, o)
print(len(cases), 'cases', bad, 'differences', dict(cnt))
