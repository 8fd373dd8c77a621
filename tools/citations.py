#!/usr/bin/env python3
"""Check (or, with --fix, correct) 'src/f.c:A-B [fn]' citations in the model."""
import re,sys,glob,os
def ranges(path):
    L=open(path).read().split('\n'); r={}
    for i,l in enumerate(L):
        m=re.match(r'^([a-z_A-Z0-9]+)\(',l)
        if m and i>0 and L[i-1] and not L[i-1].startswith(('#','}',' ','\t','/')):
            for j in range(i,len(L)):
                if L[j]=='}':
                    r.setdefault(m.group(1),[]).append((i,j+1)); break
    return r
fix='--fix' in sys.argv
cache={}
for v in sorted(glob.glob('/verif/rocq/theories/*.v')):
    t=open(v).read()
    def sub(m):
        p='/repo/'+m.group(1)
        if not os.path.exists(p):
            print(v,'NO FILE',m.group(0)); return m.group(0)
        if p not in cache: cache[p]=ranges(p)
        fn=m.group(5)
        if fn not in cache[p]: 
            print(v,'not a function:',m.group(0).replace('\n',' ')); return m.group(0)
        A,B=int(m.group(2)),int(m.group(3))
        if (A,B) in cache[p][fn]: return m.group(0)
        good=cache[p][fn][0]
        if A<=good[0] and B>=good[1] and t[m.end():m.end()+1]==',': return m.group(0)
        if fn in ('foreach_file','__foreach_v4'): return m.group(0)
        print(v,m.group(0).replace('\n',' '),'->',good)
        return f'{m.group(1)}:{good[0]}-{good[1]}{m.group(4)}[{fn}]'
    n=re.sub(r'(src/[\w/]+\.[ch]):(\d+)-(\d+)(\s+)\[(?:struct )?(\w+)\]',sub,t)
    if fix and n!=t: open(v,'w').write(n)
