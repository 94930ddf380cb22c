#!/usr/bin/env python3
"""Writes MANIFEST.json and rocq/theories/Assumptions.v from the table below."""
import json,os,re
here=os.path.dirname(os.path.abspath(__file__)); root=os.path.dirname(here)
claims=[]
def M(pid,status,theorems,note=""): claims.append(dict(property=pid,status=status,theorems=theorems.split(),note=note))
exec(open(os.path.join(here,"claims.py")).read())
ids=[json.loads(l)["id"] for l in open(root+"/properties.jsonl")]
have=[c["property"] for c in claims]
print("missing:",[i for i in ids if i not in have],"unknown:",[h for h in have if h not in ids])
# where is each theorem
defs={}
files=[l.strip() for l in open(root+"/rocq/_CoqProject") if l.strip().endswith(".v")]
for f in files:
    for m in re.finditer(r"^\s*(?:Theorem|Lemma|Example|Corollary)\s+([A-Za-z0-9_']+)",open(root+"/rocq/"+f).read(),re.M):
        defs.setdefault(m.group(1),os.path.basename(f)[:-2])
bad=[t for c in claims for t in c["theorems"] if t not in defs]
print("undefined theorems:",bad)
json.dump({"claims":claims},open(root+"/MANIFEST.json","w"),indent=1)
mods=sorted({defs[t] for c in claims for t in c["theorems"] if t in defs})
with open(root+"/rocq/theories/Assumptions.v","w") as o:
    o.write("(** Assumptions.v -- generated by tools/manifest.py: what each claimed theorem rests on. *)\nFrom Verif Require Import %s.\n"%" ".join(mods))
    seen=set()
    for c in claims:
        for t in c["theorems"]:
            if t in defs and t not in seen:
                seen.add(t); o.write("Print Assumptions %s.\n"%t)
