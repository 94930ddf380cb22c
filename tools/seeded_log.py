# Turns the results of mutation runs (see seeded/README.md) into seeded/LOG.jsonl.
import json,re,sys,glob
T={"m33":"Survived: no theorem covered checkpoints whose source resumes earlier. Added C65 (SpoilSpec.v, Props_spoil.v).",
   "m35":"Survived where it counts (C44 stated with the model's own entry function). Independent entry specification TarSpec.tm_entry/th_entry; m35b is the same edit after that.",
   "m42":"As m35, for zip: ZipSpec.zrecord_entry/zlisting; m42b is the same edit after that.",
   "m39":"Survived: nothing was stated about Features. Added C64; m39b is the same edit after that.",
   "m30":"Only broke proofs, not the claim about stopping. Added C61, C62; m30b is the same edit after that."}
try: T.update(json.load(open("/verif/tools/tightened.json")))
except FileNotFoundError: pass
def defn(f,old,base="/verif/rocq/theories/"):
    try: s=open(base+f).read()
    except FileNotFoundError: return ""
    i=s.find(old)
    if i<0: return ""
    m=list(re.finditer(r"^\s*(?:Program )?(?:Definition|Fixpoint|with|Record|Inductive|Notation)\s+(\S+)",s[:i+1],re.M))
    return m[-1].group(1) if m else ""
# claims corrected after the runs
OV=dict(f04='C29',f08='C29',f10='C31',f11='C28',f12='C27/C33',f13='C32',f15='C36',f17='C31',f14='C26/C31',z06='C38',z14='C39',z18='C41',p04='C30',p06='C39',s01='C04',s02='C04',s03='C03',s05='C04/C05',s07='C04/C05',s08='C04/C05',s10='C07',s12='C10',s13='C10',s14='C10',s15='C10',d01='C13',d02='C14',d03='C13',d04='C14',d08='C14',d09='C13',g16='C13',g22='C59',m38='C44',g31='C04',h15='C42',h19='C42/C72',i28='C30',i30='C39',i35='C31',i36='C36',i41='C56',h49='C56')
out=[]
for l in open("/tmp/mt/results.jsonl"):
    r=json.loads(l)
    if r["status"]!="ok": continue
    d=[defn(e[2] if len(e)>2 else r["file"],e[0]) for e in r["edits"]]
    out.append({"id":r["id"],"file":r["file"],"definition":", ".join(dict.fromkeys(x for x in d if x)),
      "edit":r.get("desc") or r["edit"],"diff":[{"from":e[0],"to":e[1]} for e in r["edits"]],"breaks":OV.get(r["id"],r["claim"]),
      "theorems_failed":r["failed"],"theorems_tightened":T.get(r["id"],"")})
open("/verif/seeded/LOG.jsonl","w").write("".join(json.dumps(o)+"\n" for o in out))
print(len(out),[o["id"] for o in out if not o["theorems_failed"]],[o["id"] for o in out if not o["definition"]])
