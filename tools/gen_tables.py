#!/usr/bin/env python3
"""Writes FlexTables.v, BisonTables.v, TokenCodes.v, GrammarDef.v from the text of /repo/src/parser (see extract.py)."""
import sys,os,re
sys.path.insert(0,os.path.dirname(__file__))
from extract import *
OUT=os.path.join(os.path.dirname(__file__),'../rocq/theories/')
def lineno(src,name):
    m=re.search(r'\b'+name+r'\[\d*\] =',src); a=src[:m.start()].count('\n')+1
    b=src[:src.index(';',m.end())].count('\n')+1
    return a,b
def fmt(l):
    o='';line='  '
    for i,x in enumerate(l):
        t=('(%d)'%x if x<0 else '%d'%x)+('; ' if i<len(l)-1 else '')
        if len(line)+len(t)>116: o+=line.rstrip()+'\n'; line='  '
        line+=t
    return o+line
def tables(fn,src,file,tabs,extra=''):
    o='(** GENERATED by tools/gen_tables.py from the text of /repo/src/parser/%s.  Literal copies of the C arrays. *)\n'%file
    o+='From Verif Require Import Base.\n'+extra
    for n,l in tabs:
        a,b=lineno(src,n)
        o+='\n(** /repo/src/parser/%s:%d-%d, %d entries. *)\nDefinition %s_list : list Z := [\n%s].\n'%(file,a,b,len(l),n,fmt(l))
        o+='Definition %s : arr := Eval vm_compute in mkarr %s_list.\n'%(n,n)
    open(OUT+fn,'w').write(o)
tables('FlexTables.v',F,'flex_lexer.cpp',[(n,ftab[n]) for n in ['yy_accept','yy_ec','yy_meta','yy_base','yy_def','yy_nxt','yy_chk']])
ex=''
for k in ['YYFINAL','YYLAST','YYNTOKENS','YYNNTS','YYNRULES','YYNSTATES','YYMAXUTOK','YYPACT_NINF','YYTABLE_NINF']:
    m=re.search(r'#define '+k+r'\s',B); ex+='(** /repo/src/parser/bison_parser.cpp:%d *)\nDefinition %s : Z := %d.\n'%(B[:m.start()].count('\n')+1,k,defs[k])
tables('BisonTables.v',B,'bison_parser.cpp',[(n,btab[n]) for n in ['yytranslate','yypact','yydefact','yypgoto','yydefgoto','yytable','yycheck','yystos','yyr1','yyr2']],ex)
# names
a=B[:B.index('yytname[] =')].count('\n')+1
o='(** GENERATED by tools/gen_tables.py.  Token codes: /repo/src/parser/bison_parser.h (enum hsql_tokentype);\n    symbol numbers: positions in yytname, /repo/src/parser/bison_parser.cpp:%d ff. *)\nFrom Verif Require Import Base.\nLocal Open Scope N_scope.\n\n'%a
hl={k:H[:m.start()].count('\n')+1 for k,m in ((m.group(1),m) for m in re.finditer(r'\bSQL_(\w+) = (\d+)',H))}
for k,v in codes.items(): o+='Definition TOK_%s : Z := %d. (* bison_parser.h:%d *)\n'%(k,v,hl[k])
o+='\n(** Symbol numbers. *)\n'
chn={"'='":'eq',"'<'":'lt',"'>'":'gt',"'+'":'plus',"'-'":'minus',"'*'":'star',"'/'":'slash',"'%'":'percent',"'^'":'caret',"'['":'lbrack',"']'":'rbrack',"'('":'lpar',"')'":'rpar',"'.'":'dot',"';'":'semi',"','":'comma',"'?'":'qmark'}
def sn(n):
    if n in chn: return 'S_'+chn[n]
    return 'S_'+{'$end':'END_','$undefined':'UNDEF_','$accept':'accept_','error':'error_'}.get(n,n)
seen=set()
for i,n in enumerate(yytname):
    s=sn(n); assert s not in seen; seen.add(s)
    o+='Definition %s : N := %d.\n'%(s,i)
o+='\n(** yytname: /repo/src/parser/bison_parser.cpp:%d ff. *)\nDefinition yytname : list bytes := map la [\n'%a
q=lambda s:'"%s"'%s.replace('\\"','"').replace('"','""')
o+=';\n'.join('  '+q(n)+'%string' for n in yytname)+'].\n'
open(OUT+'TokenCodes.v','w').write(o)
o='(** GENERATED by tools/gen_tables.py from the grammar section of /repo/src/parser/bison_parser.y (the text written by\n    the authors, not the generated tables): production number, left-hand side, right-hand side.  Numbering = order of\n    appearance, production 1 is bison\'s "$accept: input $end". *)\nFrom Verif Require Import Base TokenCodes.\nLocal Open Scope N_scope.\n\nDefinition grammar : list (N * (N * list N)) := [\n'
rows=[]
for i,(l,r,ln,act) in enumerate(rules):
    rows.append('  (%d, (%s, [%s]))'%(i+1,sn(l),'; '.join(sn(x) for x in r))+ ('%s' )+ ' (* bison_parser.y:%s *)'%(ln))
o+='\n'.join((row%(';' if i<len(rows)-1 else '')) for i,row in enumerate(rows))+'\n].\n'
open(OUT+'GrammarDef.v','w').write(o)
# rule -> token table from the action switch of flex_lexer.cpp
i=F.index('/* beginning of action switch */'); seg=F[i:F.index('fatal flex scanner internal error--no action found')]
rt={}
for m in re.finditer(r'case (\d+):\n(?:/\* rule \d+ can match eol \*/\n)?YY_RULE_SETUP\n#line (\d+) "flex_lexer.l"\nTOKEN\((\w+)\)',seg):
    rt[int(m.group(1))]=(F[:i+m.start()].count('\n')+1,m.group(3))
assert sorted(rt)==list(range(5,177))
o='(** GENERATED by tools/gen_tables.py: the rules of the form TOKEN(name) (= "return SQL_name") of the action switch in\n    /repo/src/parser/flex_lexer.cpp:3229-4222. *)\nFrom Verif Require Import Base TokenCodes.\n\nDefinition token_rules : list (Z * Z) := [\n'
rows=['  (%d, TOK_%s)%s (* flex_lexer.cpp:%d *)'%(r,rt[r][1],';' if r<176 else '',rt[r][0]) for r in sorted(rt)]
o+='\n'.join(rows)+'\n].\n'
open(OUT+'LexRules.v','w').write(o)
# %destructor used by yydestruct for each symbol
i=B.index('yydestruct (const char'); seg=B[i:B.index('yyparse (hsql::SQLParserResult',i)]
o='(** GENERATED by tools/gen_tables.py: the switch of yydestruct in /repo/src/parser/bison_parser.cpp: symbol number and the\n    line in bison_parser.y of the %destructor whose code the case contains. *)\nFrom Verif Require Import Base TokenCodes.\nLocal Open Scope N_scope.\n\nDefinition destructors : list (N * N) := [\n'
rows=[]
for m in re.finditer(r'case (\d+): /\* (.*?)  \*/\n\s*#line (\d+) "bison_parser.y"',seg):
    assert yytname[int(m.group(1))]==m.group(2)
    rows.append((sn(m.group(2)),int(m.group(3)),B[:i+m.start()].count('\n')+1))
assert len(rows)==seg.count('    case ')
o+='\n'.join('  (%s, %d)%s (* bison_parser.cpp:%d *)'%(a,b,';' if k<len(rows)-1 else '',c) for k,(a,b,c) in enumerate(rows))+'\n].\n'
open(OUT+'DestructTable.v','w').write(o)
