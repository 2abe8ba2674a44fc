#!/usr/bin/env python3
"""Writes ItemCert.v: LALR(1) item sets, FIRST sets and nullable symbols (untrusted certificate, checked in Complete.v)."""
import os,sys
sys.path.insert(0,os.path.dirname(__file__))
from lalr import *
OUT=os.path.join(os.path.dirname(__file__),'../rocq/theories/')
def bits(L): return sum(1<<a for a in L)
sets=sorted({bits(L) for s in items for L in items[s].values()})
ix={b:i for i,b in enumerate(sets)}
o='''(** GENERATED by tools/gen_items.py.  Certificate: LALR(1) items (production, dot, number of the lookahead set) of each state,
    lookahead sets and FIRST sets as bit sets over the terminals, nullable nonterminals.  Nothing here is trusted: Complete.v
    re-checks every use in the kernel. *)
From Verif Require Import Base.
Local Open Scope N_scope.

Definition la_list : list N := [
'''
o+=';\n'.join('  0x%x'%b for b in sets)+'].\n'
o+='Definition item_list : list (list (N * N * N)) := [\n'
def show(s):
    I=sorted(items[s].items(),key=lambda kv:(-kv[0][1] if kv[0][1]>0 else 0,kv[0][0]))
    return '  ['+'; '.join('(%d, %d, %d)'%(r,d,ix[bits(L)]) for (r,d),L in I)+']'
o+=';\n'.join(show(s) for s in range(defs['YYNSTATES']))+'].\n'
o+='(** Nonterminals from 199 on: FIRST set, nullable. *)\nDefinition first_list : list (N * bool) := [\n'
o+=';\n'.join('  (0x%x, %s)'%(bits(first[A]),'true' if A in nullable else 'false') for A in range(NT,NT+defs['YYNNTS']))+'].\n'
open(OUT+'ItemCert.v','w').write(o)
