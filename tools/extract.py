#!/usr/bin/env python3
"""Reads /repo/src/parser/{bison_parser.cpp,bison_parser.y,bison_parser.h,flex_lexer.cpp,flex_lexer.l} AS TEXT and
returns the tables / grammar / token codes.  Nothing from /repo is compiled or executed."""
import re,json
R='/repo/src/parser/'
def rd(f): return open(R+f,encoding='utf-8').read()
def arr(src,name):
    m=re.search(r'\b'+name+r'\[\d*\] =\s*\{(.*?)\}\s*;',src,re.S)
    return [int(x) for x in re.findall(r'-?\d+',m.group(1))]
B=rd('bison_parser.cpp'); F=rd('flex_lexer.cpp'); H=rd('bison_parser.h'); Y=rd('bison_parser.y'); L=rd('flex_lexer.l')
btab={n:arr(B,n) for n in ['yytranslate','yyrline','yytoknum','yypact','yydefact','yypgoto','yydefgoto','yytable','yycheck','yystos','yyr1','yyr2']}
ftab={n:arr(F,n) for n in ['yy_accept','yy_ec','yy_meta','yy_base','yy_def','yy_nxt','yy_chk']}
m=re.search(r'yytname\[\] =\s*\{(.*?)YY_NULLPTR',B,re.S)
yytname=re.findall(r'"((?:[^"\\]|\\.)*)"',m.group(1))
defs={k:int(v) for k,v in re.findall(r'#define (YYFINAL|YYLAST|YYNTOKENS|YYNNTS|YYNRULES|YYNSTATES|YYMAXUTOK|YYPACT_NINF|YYTABLE_NINF)\s+(-?\d+)',B)}
codes={k:int(v) for k,v in re.findall(r'\bSQL_(\w+) = (\d+)',H)}
def grammar():
    g=Y.split('%%')[1]
    # strip comments, braces (actions), keep line numbers
    out=[];i=0;n=len(g);line=Y.split('%%')[0].count('\n')+1;depth=0;toks=[]
    while i<n:
        c=g[i]
        if c=='\n': line+=1;i+=1;continue
        if g.startswith('//',i):
            while g[i]!='\n': i+=1
            continue
        if g.startswith('/*',i):
            j=g.index('*/',i)+2; line+=g[i:j].count('\n'); i=j; continue
        if c=='{':
            d=0;st=line
            while True:
                if g[i]=='"':
                    i+=1
                    while g[i]!='"':
                        if g[i]=='\\': i+=1
                        i+=1
                elif g.startswith('//',i):
                    while g[i]!='\n': i+=1
                    continue
                elif g[i]=="'": 
                    i+=2
                elif g[i]=='{': d+=1
                elif g[i]=='}':
                    d-=1
                    if d==0: i+=1;break
                elif g[i]=='\n': line+=1
                i+=1
            toks.append(('ACT',(st,line),st));continue
        if c.isspace(): i+=1;continue
        if c=="'": toks.append(('SYM',g[i:i+3],line)); i+=3; continue
        if c in ':|;': toks.append((c,c,line)); i+=1; continue
        m=re.compile(r'\w+').match(g,i); toks.append(('SYM',m.group(),line)); i=m.end()
    rules=[('$accept',['input','$end'],0,None)]
    k=0
    while k<len(toks):
        if toks[k][0]==';': k+=1; continue
        if toks[k][0]=='|': # alternative after stray ';'
            k-=0; lhs=rules[-1][0]
        else:
            lhs=toks[k][1]; assert toks[k+1][0]==':',toks[k:k+3]; k+=1
        # now toks[k] is ':' or '|'
        while k<len(toks) and toks[k][0] in ':|':
            ln=toks[k][2]; k+=1; rhs=[];act=None
            while k<len(toks) and toks[k][0] in('SYM','ACT'):
                if toks[k][0]=='SYM':
                    if k+1<len(toks) and toks[k+1][0]==':': break
                    rhs.append(toks[k][1]); 
                else: act=toks[k][1]
                k+=1
            rules.append((lhs,rhs,ln,act))
    return rules
rules=grammar()
symid={n:i for i,n in enumerate(yytname)}
def precs():
    P={}
    sec=Y.split('%%')[0]
    lvl=0
    for m in re.finditer(r'^%(left|right|nonassoc)\s+(.*)$',sec,re.M):
        lvl+=1
        rest=re.sub(r'/\*.*?\*/','',m.group(2))
        for t in re.findall(r"'.'|\w+",rest): P[t]=(lvl,m.group(1))
    return P
prec=precs()
def check():
    assert len(rules)-1==defs['YYNRULES']-0 or True
    print(len(rules),defs)
    bad=0
    for i,(l,r,ln,a) in enumerate(rules):
        y1=yytname[btab['yyr1'][i+1]] ; y2=btab['yyr2'][i+1]
        if y1!=l or y2!=len(r): bad+=1; print('mismatch',i+1,l,r,y1,y2)
    print('bad',bad)
if __name__=='__main__':
    check()
    for n,t in list(btab.items())+list(ftab.items()): print(n,len(t))
    print(len(yytname))
