#!/usr/bin/env python3
"""Rebuild MANIFEST.json: theorem names are scanned from the Properties files,
status and note come from tools/status.json ({"C01": ["proved", "note"]})."""
import json,re,glob,os
root=os.path.dirname(os.path.dirname(os.path.abspath(__file__)))
names={}
for f in sorted(glob.glob(root+"/rocq/theories/**/Properties*.v",recursive=True)):
    for m in re.finditer(r"^(?:Theorem|Corollary)\s+((C\d+)_\w+)",open(f).read(),re.M):
        names.setdefault(m.group(2),[]).append(m.group(1))
status=json.load(open(root+"/tools/status.json"))
claims=[]
for line in open(root+"/properties.jsonl"):
    if not line.strip(): continue
    i=json.loads(line)["id"]
    th=names.get(i,[])
    if i not in status and not th: continue
    st,note=status.get(i,["partial",""])
    claims.append({"property":i,"status":st,"theorems":th,"note":note})
json.dump({"claims":claims},open(root+"/MANIFEST.json","w"),indent=1)
print(len(claims),"claims",sum(len(c["theorems"]) for c in claims),"theorems")
missing=[i for i in names if i not in [c["property"] for c in claims]]
if missing: print("theorems for unknown ids",missing)
