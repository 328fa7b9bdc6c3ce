#!/usr/bin/env python3
"""List every citation file:from-to in the model files together with the cited first/last source lines,
so that they can be compared by eye."""
import re,sys,glob,os
src={os.path.relpath(f,'/repo'):open(f,errors='replace').read().split('\n') for f in glob.glob('/repo/**/*.rs',recursive=True)}
def find(n):
    c=[k for k in src if k.endswith('/'+n) or k==n]
    return c
for f in sys.argv[1:]:
    lines=open(f).read().split('\n')
    for i,l in enumerate(lines):
        for m in re.finditer(r'([\w/]+\.rs):(\d+)(?:-(\d+))?',l):
            c=find(m.group(1)); a=int(m.group(2)); b=int(m.group(3) or a)
            d=next((x for x in lines[i:] if re.match(r'\s*(Definition|Fixpoint|Inductive|Record|with)',x)),'')
            print(f"{os.path.basename(f)}:{i+1} {m.group(0)} [{d.strip()[:50]}]")
            if len(c)!=1: print('   ??? ',c); continue
            s=src[c[0]]
            if b>len(s): print('   OUT OF RANGE'); continue
            print('   ',s[a-1].strip()[:90],' ... ',s[b-1].strip()[:40])
