#!/usr/bin/env python3
"""Print, for every file:line citation in the model, the first line of /repo cited. Used to keep the citations honest."""
import re,os,sys,glob
src={}
for d,_,fs in os.walk('/repo/src'):
    for f in fs: src[f]=os.path.join(d,f)
only=sys.argv[1:]
for v in sorted(glob.glob('/verif/rocq/theories/*.v')):
    b=os.path.basename(v)
    if only and b not in only: continue
    t=open(v).read()
    for m in re.finditer(r'\(\*\*?.*?\*\)',t,re.S):
        c=m.group(0); ln=t[:m.start()].count('\n')+1
        f=None
        for k in re.finditer(r'(\w+\.(?:cpp|hpp|ipp|h))|(?<![\w.^])(\d+)-(\d+)(?![\w])|(?<=:)(\d+)(?![\w-])',c):
            if k.group(1): f=k.group(1); continue
            if f is None: continue
            a=int(k.group(2) or k.group(4)); z=int(k.group(3) or k.group(4))
            if f not in src: print(b,ln,f,a,'NOFILE'); continue
            L=open(src[f]).read().split('\n')
            if z>len(L) or z<a: print(b,ln,f,a,z,'RANGE'); continue
            ctx=c[k.end():k.end()+38].replace('\n',' ')
            print(f'{b}:{ln} {f}:{a}-{z} [{ctx}] | {L[a-1].strip()[:60]} | {L[z-1].strip()[:12]}')
