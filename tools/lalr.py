#!/usr/bin/env python3
"""Recomputes LR(0) item sets + LALR(1) lookaheads for the grammar of bison_parser.y, walking the automaton encoded in
the bison tables (text of bison_parser.cpp).  Untrusted: the result is a certificate re-checked inside Coq."""
from extract import *
import collections,sys
NT=defs['YYNTOKENS']
G=[None]+[(symid[l] if l!='$accept' else NT, [symid[x] for x in r]) for (l,r,_,_) in rules]
prods=collections.defaultdict(list)
for i,p in enumerate(G):
    if p: prods[p[0]].append(i)
pact,defact,table,chk,pgoto,defgoto=(btab[k] for k in('yypact','yydefact','yytable','yycheck','yypgoto','yydefgoto'))
def action(s,t):
    n=pact[s]
    if n!=defs['YYPACT_NINF']:
        k=n+t
        if 0<=k<=defs['YYLAST'] and chk[k]==t:
            v=table[k]
            if v>0: return ('s',v)
            if v==defs['YYTABLE_NINF']: return ('e',0)
            return ('r',-v)
    d=defact[s]
    return ('r',d) if d else ('e',0)
def goto(s,A):
    k=pgoto[A-NT]+s
    if 0<=k<=defs['YYLAST'] and chk[k]==s: return table[k]
    return defgoto[A-NT]
nullable=set();ch=True
while ch:
    ch=False
    for p in G[1:]:
        if p[0] not in nullable and all(x in nullable for x in p[1]): nullable.add(p[0]);ch=True
first={s:set([s]) if s<NT else set() for s in range(NT+defs['YYNNTS'])}
ch=True
while ch:
    ch=False
    for l,r in G[1:]:
        for x in r:
            if not first[x]<=first[l]: first[l]|=first[x];ch=True
            if x not in nullable: break
def closure0(K):
    I=set(K);st=list(K)
    while st:
        r,d=st.pop()
        rhs=G[r][1]
        if d<len(rhs) and rhs[d]>=NT:
            for q in prods[rhs[d]]:
                if (q,0) not in I: I.add((q,0));st.append((q,0))
    return I
kern={0:frozenset([(1,0)])};trans={};work=[0]
while work:
    s=work.pop()
    I=closure0(kern[s]);by=collections.defaultdict(set)
    for r,d in I:
        rhs=G[r][1]
        if d<len(rhs): by[rhs[d]].add((r,d+1))
    for X,K in by.items():
        K=frozenset(K)
        if X>=NT: t=goto(s,X)
        else:
            a=action(s,X)
            if a[0]!='s': trans[(s,X)]=None; continue
            t=a[1]
        if t in kern: assert kern[t]==K,(s,X,t)
        else: kern[t]=K;work.append(t)
        trans[(s,X)]=t
if __name__=='__main__':
    print('states',len(kern),'dropped transitions',[(s,yytname[X]) for (s,X),t in trans.items() if t is None])
    for s in range(defs['YYNSTATES']):
        if s not in kern: print('unreached',s)
# LALR lookaheads by LR(1) closure propagation to fixpoint
la={s:{k:set() for k in kern[s]} for s in kern}
la[0][(1,0)]=set()  # $end is in the rule 1 explicitly
def firstseq(seq,L):
    out=set()
    for x in seq:
        out|=first[x]
        if x not in nullable: return out
    return out|L
def closure1(K):
    I={k:set(v) for k,v in K.items()};st=list(I)
    while st:
        it=st.pop();r,d=it;rhs=G[r][1]
        if d<len(rhs) and rhs[d]>=NT:
            f=firstseq(rhs[d+1:],I[it])
            for q in prods[rhs[d]]:
                if (q,0) not in I: I[(q,0)]=set(f);st.append((q,0))
                elif not f<=I[(q,0)]: I[(q,0)]|=f;st.append((q,0))
    return I
work=collections.deque(kern)
inq=set(kern)
while work:
    s=work.popleft();inq.discard(s)
    I=closure1(la[s])
    for (r,d),L in I.items():
        rhs=G[r][1]
        if d<len(rhs):
            t=trans[(s,rhs[d])]
            if t is None: continue
            if not L<=la[t][(r,d+1)]:
                la[t][(r,d+1)]|=L
                if t not in inq: inq.add(t);work.append(t)
items={s:closure1(la[s]) for s in kern}
def rprec(r):
    for x in reversed(G[r][1]):
        if x<NT: return prec.get(yytname[x])
    return None
if __name__=='__main__':
    confl=collections.Counter()
    killR=set();killS=set()
    for s in kern:
        for (r,d),L in items[s].items():
            rhs=G[r][1]
            if d==len(rhs):
                for a in L:
                    if action(s,a)!=('r',r):
                        if r==1: continue
                        killR.add((r,a))
            elif rhs[d]<NT:
                a=rhs[d]
                if action(s,a)[0]!='s':
                    for (q,e),M in items[s].items():
                        if e==len(G[q][1]) and a in M: killS.add((q,a,r,d))
    def rn(r): return str(r)+':'+yytname[G[r][0]]+'->'+' '.join(yytname[x] for x in G[r][1])
    d=collections.defaultdict(list)
    for r,a in killR: d[r].append(yytname[a])
    print('killR');
    for r in sorted(d): print('  ',rn(r),sorted(d[r]))
    d=collections.defaultdict(set);dd=set()
    for q,a,r,dd_ in killS: d[q].add(yytname[a]); dd.add((r,dd_))
    print('killS')
    for r in sorted(d): print('  ',rn(r),sorted(d[r]))
    print(sorted(dd))
    tot=sum(len(v) for v in items.values()); print('items',tot, 'la total',sum(len(L) for v in items.values() for L in v.values()))
