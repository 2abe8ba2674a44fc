#!/usr/bin/env python3
"""Writes ParserCert.v: untrusted certificates about the LALR automaton (checked inside Coq)."""
import os,sys
sys.path.insert(0,os.path.dirname(__file__))
from lalr import *
OUT=os.path.join(os.path.dirname(__file__),'../rocq/theories/')
preds=collections.defaultdict(set)
for (s,X),t in trans.items():
    if t is not None: preds[t].add(s)
NS=defs['YYNSTATES']
# weights: greatest solution of w(A) <= sum w(rhs) - 1, all tokens weigh K
def weights(K):
    w={s:K for s in range(NT)}
    for A in range(NT,NT+defs['YYNNTS']): w[A]=10**9
    for it in range(2000):
        ch=False
        for l,r in G[1:]:
            c=sum(w[x] for x in r)-1
            if c<w[l]: w[l]=c;ch=True
        if not ch: return w
    return None
K=15
while True:
    w=weights(K)
    if w: break
    K+=1
if __name__=='__main__':
    print('K',K,'min w',min(w.values()),'max',max(w.values()))
    def z(x): return '(%d)'%x if x<0 else str(x)
    o='(** GENERATED by tools/gen_cert.py.  Certificates about the bison automaton.  Nothing here is trusted: every use is\n    re-checked by a boolean validator evaluated in the kernel (TableCheck.v). *)\nFrom Verif Require Import Base.\n\n'
    o+='(** For each state, the states from which it is entered. *)\nDefinition preds_list : list (list Z) := [\n'
    o+=';\n'.join('  ['+'; '.join(map(str,sorted(preds[s])))+']' for s in range(NS))+'].\n\n'
    o+='(** Weight of each grammar symbol: every production strictly decreases the total weight. *)\nDefinition weight_list : list Z := [\n  '
    ws=[z(w[s]) for s in range(NT+defs['YYNNTS'])]
    o+=';\n  '.join('; '.join(ws[i:i+20]) for i in range(0,len(ws),20))+'].\n'
    open(OUT+'ParserCert.v','w').write(o)
