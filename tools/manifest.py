"""Regenerates /verif/MANIFEST.json from the theorem names in *_Props.v and tools/notes.json."""
import json,re,glob
props=[json.loads(l)["id"] for l in open('/verif/properties.jsonl')]
notes=json.load(open('/verif/tools/notes.json'))
thms={}
for f in sorted(glob.glob('/verif/rocq/theories/*_Props.v')):
    for m in re.finditer(r'^Theorem (C\d+)_(\w+)',open(f).read(),re.M):
        thms.setdefault(m.group(1),[]).append(m.group(1)+'_'+m.group(2))
claims=[]
for p in props:
    t=thms.get(p,[]); n=notes.get(p,{})
    if not t and not n: continue
    st=n.get("status") or ("partial" if any(x.endswith('_refuted') or x.endswith('_partial') for x in t) else "proved")
    claims.append(dict(property=p,status=st,theorems=t,note=n.get("note","")))
for p in thms:
    assert p in props,p
json.dump(dict(claims=claims),open('/verif/MANIFEST.json','w'),indent=1)
print(len(claims),"claims; missing:",[p for p in props if p not in [c["property"] for c in claims]])
