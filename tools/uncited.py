#!/usr/bin/env python3
"""List the functions of /repo that no citation in rocq/theories covers (tests excluded)."""
import re,glob,os
src={os.path.relpath(f,'/repo'):open(f,errors='replace').read().split('\n') for f in glob.glob('/repo/**/*.rs',recursive=True)}
cov={k:set() for k in src}
for f in glob.glob('/verif/rocq/theories/*.v'):
    t=open(f).read()
    for m in re.finditer(r'([\w/]+\.rs):([\d,\-\s]+)',t):
        c=[k for k in src if k.endswith('/'+m.group(1)) or k==m.group(1)]
        if len(c)!=1: continue
        for r in re.finditer(r'(\d+)(?:-(\d+))?',m.group(2)):
            a=int(r.group(1)); b=int(r.group(2) or a)
            cov[c[0]].update(range(a,b+1))
for k in sorted(src):
    out=[]
    for i,l in enumerate(src[k],1):
        if '#[cfg(test)]' in l: break
        if re.search(r'\bfn \w+',l) and i not in cov[k]: out.append(f"  {i}: {l.strip()[:110]}")
    if out: print(k); print('\n'.join(out))
