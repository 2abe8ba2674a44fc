import json
m=json.load(open('/verif/MANIFEST.json'))
ths=[]
for c in sorted(m['claims'],key=lambda c:c['property']):
    for t in c['theorems']:
        if t not in ths: ths.append(t)
import subprocess,re
loc={}
for t in ths:
    o=subprocess.run(['grep','-lE',r'^(Theorem|Lemma|Corollary) %s\b'%t]+__import__('glob').glob('/verif/rocq/theories/*.v'),capture_output=True,text=True).stdout.split()
    assert len(o)==1,(t,o)
    loc[t]=o[0].split('/')[-1][:-2]
mods=sorted(set(loc.values()))
out="(** Every theorem named in MANIFEST.json, gathered in one term so that one [Print Assumptions] covers them all.\n    Expected output: [Closed under the global context].  Generated by tools/assumptions.py. *)\n"
out+="From Verif Require %s.\n\n"%' '.join(mods)
out+="Definition all_property_theorems :=\n  ("+",\n   ".join('@%s.%s'%(loc[t],t) for t in ths)+").\n\nPrint Assumptions all_property_theorems.\n"
open('/verif/rocq/theories/Assumptions.v','w').write(out)
