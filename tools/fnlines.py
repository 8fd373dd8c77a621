#!/usr/bin/env python3
"""Print the line ranges of the functions of a C file of /repo."""
import re,sys
for f in sys.argv[1:]:
    L=open('/repo/src/'+f).read().split('\n')
    for i,l in enumerate(L):
        m=re.match(r'^([a-z_A-Z0-9]+)\(',l)
        if m and i>0 and L[i-1] and not L[i-1].startswith(('#','}',' ','\t','/')):
            for j in range(i,len(L)):
                if L[j]=='}': break
                if L[j].endswith(';') and not L[j].startswith('\t') and '{' not in ''.join(L[i:j+1]): break
            print(f, m.group(1), f'{i}-{j+1}')
