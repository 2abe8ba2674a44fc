#!/usr/bin/env python3
"""Writes LexSpec.v (the rules of flex_lexer.l as regular expressions) and LexCert.v (a shortest text reaching every state
of the scanner's automaton; checked in Coq, not trusted)."""
import sys,os,re
sys.path.insert(0,os.path.dirname(__file__))
from extract import *
OUT=os.path.join(os.path.dirname(__file__),'../rocq/theories/')
lines=L.split('\n'); start=[i for i,l in enumerate(lines) if l.strip()=='%%'][0]
end=[i for i,l in enumerate(lines) if l.strip()=='%%'][1]
def cls(s):
    neg=s[0]=='^'
    if neg: s=s[1:]
    i=0;l=[]
    def ch():
        nonlocal i
        c=s[i]; i+=1
        if c=='\\':
            c={'n':'\n','t':'\t'}.get(s[i],s[i]); i+=1
        return ord(c)
    while i<len(s):
        a=ch()
        if i<len(s)-1 and s[i]=='-':
            i+=1; b=ch(); l.append((a,b))
        else: l.append((a,a))
    return 'Cls %s [%s]'%('true' if neg else 'false','; '.join('(%d, %d)'%p for p in l))
named={'Cls false [(32, 32); (9, 9); (10, 10)]':'Blank','Cls false [(48, 57)]':'Digit'}
def lit(c):
    return '(Chr "%s"%%char)'%('""' if c=='"' else c) if c!='\n' else '(Chr LF)'
def parse(p):
    items=[];i=0;word=''
    def flush():
        nonlocal word
        if word: items.append('(Word (la "%s"))'%word if len(word)>1 else '(Letter "%s"%%char)'%word); word=''
    while i<len(p):
        c=p[i]
        if c.isalnum() : 
            if i+1<len(p) and p[i+1] in '*+': raise Exception(p)
            word+=c; i+=1; continue
        if c=='-': word+=c; i+=1; continue
        flush()
        if c=='[':
            j=i+1
            while p[j]!=']':
                if p[j]=='\\': j+=1
                j+=1
            a=cls(p[i+1:j]); a=named.get(a,'('+a+')'); i=j+1
        elif c=='"':
            j=p.index('"',i+1); s=p[i+1:j]; i=j+1
            a='(Word (la "%s"))'%s if len(s)>1 else lit(s)
        elif c=='\\':
            a=lit({'n':'\n'}.get(p[i+1],p[i+1])); i+=2
        elif c=='.': a='Any'; i+=1
        else: raise Exception(p)
        if i<len(p) and p[i]=='*': a='(Star %s)'%a; i+=1
        elif i<len(p) and p[i]=='+': a='(Plus %s)'%a; i+=1
        items.append(a)
    flush()
    r=items[-1]
    for a in reversed(items[:-1]): r='(Cat %s %s)'%(a,r)
    return r
out=[];n=0;depth=0;incom=False
i=start+1
while i<end:
    l=lines[i]; i+=1
    if incom:
        if '*/' in l: incom=False
        continue
    if depth:
        depth+=l.count('{')-l.count('}'); continue
    if not l.strip(): continue
    if l[0].isspace():
        if l.strip().startswith('/*') and '*/' not in l: incom=True
        continue
    # pattern: up to first unquoted blank
    j=0;q=False;b=False
    while j<len(l):
        c=l[j]
        if c=='\\': j+=2; continue
        if q:
            if c=='"': q=False
        elif b:
            if c==']': b=False
        elif c=='"': q=True
        elif c=='[': b=True
        elif c.isspace(): break
        j+=1
    pat=l[:j]; act=l[j:]
    depth=act.count('{')-act.count('}') if not act.strip().startswith('/*') else 0
    sc='any'
    if pat.startswith('<COMMENT>'): sc='CommentOnly'; pat=pat[9:]
    elif pat.startswith('<singlequotedstring>'): sc='StringOnly'; pat=pat[20:]
    if pat=='<<EOF>>': continue
    n+=1
    out.append((n,{'any':'Normal'}.get(sc,sc),parse(pat),i,lines[i-1][:60].strip()))
assert n==188,n
o='''(** GENERATED by tools/gen_lexspec.py.  Specification: the rules of /repo/src/parser/flex_lexer.l:59-286 in their order, as
    regular expressions.  %option case-insensitive is part of [Word]/[Letter]. *)
From Verif Require Import Base Regex.
Local Open Scope Z_scope.

(** Where a rule applies: rules without a prefix everywhere except in the exclusive condition singlequotedstring
    (flex_lexer.l:24 %x, :50 %s). *)
Inductive where_ := Normal | CommentOnly | StringOnly.
Definition flex_rules : list (Z * (where_ * rx)) := [
'''
o+='\n'.join('  (%d, (%s, %s))%s (* flex_lexer.l:%d *)'%(a,b,c,';',d) for a,b,c,d,e in out)
o+='\n  (189, (Normal, Alt Any (Chr LF))); (189, (StringOnly, Alt Any (Chr LF))) (* the default rule of flex: any byte *)\n].\n'
open(OUT+'LexSpec.v','w').write(o)
# certificate
T=ftab; JAM=1367
def nxt(s,c):
    while T['yy_chk'][T['yy_base'][s]+c]!=s:
        s=T['yy_def'][s]
        if s>=1368: c=T['yy_meta'][c]
    return T['yy_nxt'][T['yy_base'][s]+c]
acc={1:(1,''),3:(3,''),5:(5,'')}; todo=[1,3,5]
rep={}
for b in [ord(x) for x in 'abcdefghijklmnopqrstuvwxyz0 \n\t"\'']+list(range(1,256)): rep.setdefault(T['yy_ec'][b],b)
for s in todo:
    for c,b in sorted(rep.items()):
        t=nxt(s,c)
        if t!=JAM and t not in acc:
            acc[t]=(acc[s][0],acc[s][1]+chr(b)); todo.append(t)
print(len(acc),'states; not reached:',[s for s in range(1367) if s not in acc][:20], 'eob', {nxt(s,0) for s in acc})
def enc(w): return '['+'; '.join(str(ord(x)) for x in w)+']'
ent=[]
for s in range(1,1367):
    if s in acc: ent.append('(%d, (%d, %s))'%(s,acc[s][0],enc(acc[s][1])))
o='(** GENERATED by tools/gen_lexspec.py.  For every reachable state of the automaton in /repo/src/parser/flex_lexer.cpp: a start\n    state and a text leading to it.  Not trusted: LexProof.v checks everything it uses. *)\nFrom Verif Require Import Base.\nLocal Open Scope Z_scope.\nDefinition access : list (Z * (Z * list Z)) := [\n  '
line=''
for k,e in enumerate(ent):
    x=e+('; ' if k<len(ent)-1 else '')
    if len(line)+len(x)>116: o+=line.rstrip()+'\n  '; line=''
    line+=x
o+=line+'].\n'
open(OUT+'LexCert.v','w').write(o)
