#!/usr/bin/env python3
"""Rebuild MANIFEST.json and rocq/_CoqProject's file list from the sources.
Property theorems live in rocq/theories/Props/*.v and are named Cxx_..."""
import json,re,glob,os
root=os.path.dirname(os.path.dirname(os.path.abspath(__file__)))
props=[json.loads(l) for l in open(root+"/properties.jsonl") if l.strip()]
status=json.load(open(root+"/tools/status.json"))
thms={}
for f in sorted(glob.glob(root+"/rocq/theories/Props/*.v")):
    for m in re.finditer(r"^Theorem (C\d+)_(\w+)",open(f).read(),re.M):
        thms.setdefault(m.group(1),[]).append(m.group(1)+"_"+m.group(2))
claims=[]
for p in props:
    i=p["id"]; st=status.get(i,{})
    t=thms.get(i,[])
    s=st.get("status") or ("proved" if t else "partial")
    claims.append({"property":i,"status":s,"theorems":t,"note":st.get("note","" if t else "not yet modelled")})
json.dump({"claims":claims},open(root+"/MANIFEST.json","w"),indent=1)
order=["Base","Model","Spec","Proofs","Props"]
files=[]
for d in order: files+=sorted(glob.glob(root+"/rocq/theories/"+d+"/*.v"))
lines=["-Q theories Verif"]+[os.path.relpath(f,root+"/rocq") for f in files]
open(root+"/rocq/_CoqProject","w").write("\n".join(lines)+"\n")
print(sum(len(x) for x in thms.values()),"theorems;",[c["property"] for c in claims if not c["theorems"]],"open")
