(** Specification: expressions, how they are written, and the object trees they denote.  Independent of the parser.  The only code
    of /repo referred to is the class Expr (Expr.h), through the object constructors of Sem.v. *)
From Verif Require Import Base TokenCodes LexModel Ast Heap Actions ParseModel Grammar Sem Part.
Local Open Scope nat_scope.

(** Operators with their tokens and the operators of the object tree. *)
Inductive uop := UNeg | UNot | UIsNull | UISNULL | UIsNotNull.
Inductive bop := BMinus | BPlus | BSlash | BStar | BPercent | BCaret | BConcat | BLike | BNotLike | BILike | BEq | BEqEq | BNe | BLt | BGt | BLe | BGe | BAnd | BOr.
Definition btok (o : bop) : tokens_ :=
  match o with
  | BMinus => [K 45] | BPlus => [K 43] | BSlash => [K 47] | BStar => [K 42] | BPercent => [K 37] | BCaret => [K 94] | BConcat => [K TOK_CONCAT]
  | BLike => [K TOK_LIKE] | BNotLike => [K TOK_NOT; K TOK_LIKE] | BILike => [K TOK_ILIKE] | BEq => [K 61] | BEqEq => [K TOK_EQUALS] | BNe => [K TOK_NOTEQUALS]
  | BLt => [K 60] | BGt => [K 62] | BLe => [K TOK_LESSEQ] | BGe => [K TOK_GREATEREQ] | BAnd => [K TOK_AND] | BOr => [K TOK_OR]
  end%Z.
Definition bobj (o : bop) : val :=
  match o with
  | BMinus => kOpMinus | BPlus => kOpPlus | BSlash => kOpSlash | BStar => kOpAsterisk | BPercent => kOpPercentage | BCaret => kOpCaret | BConcat => kOpConcat
  | BLike => kOpLike | BNotLike => kOpNotLike | BILike => kOpILike | BEq | BEqEq => kOpEquals | BNe => kOpNotEquals
  | BLt => kOpLess | BGt => kOpGreater | BLe => kOpLessEq | BGe => kOpGreaterEq | BAnd => kOpAnd | BOr => kOpOr
  end.
(** Units of EXTRACT. *)
Inductive unit_ := Second | Minute | Hour | Day | Month | Year.
Definition unit_tok (u : unit_) : Z * tokval := K (match u with Second => TOK_SECOND | Minute => TOK_MINUTE | Hour => TOK_HOUR | Day => TOK_DAY | Month => TOK_MONTH | Year => TOK_YEAR end).
Definition units_tok (u : unit_) : Z * tokval := K (match u with Second => TOK_SECONDS | Minute => TOK_MINUTES | Hour => TOK_HOURS | Day => TOK_DAYS | Month => TOK_MONTHS | Year => TOK_YEARS end).
Definition unit_obj (u : unit_) : val := match u with Second => kDatetimeSecond | Minute => kDatetimeMinute | Hour => kDatetimeHour | Day => kDatetimeDay | Month => kDatetimeMonth | Year => kDatetimeYear end.
(** Texts of intervals: a number if a unit follows, a number and a unit otherwise (sscanf formats %d and %d %7s, see PropLit.v). *)
Definition interval_text (s : bytes) (u : option unit_) : option (Z * val) :=
  match u with
  | Some u => match scan_interval1 s with SYes n _ => Some (n, unit_obj u) | _ => None end
  | None => match scan_interval2 s with SYes n w => match unit_of w with Some f => Some (n, f) | None => None end | _ => None end
  end.
(** Column types. *)
Inductive ctype := TBigint | TBoolean | TChar (n : Z) | TCharVarying (n : Z) | TVarchar (n : Z) | TDate | TDatetime | TTimestamp | TDecimal | TDecimal1 (p : Z) | TDecimal2 (p s : Z)
  | TDouble | TFloat | TInt | TInteger | TLong | TReal | TSmallint | TText | TTime | TTime1 (p : Z).
Definition ctype_tok (t : ctype) : tokens_ :=
  match t with
  | TBigint => [K TOK_BIGINT] | TBoolean => [K TOK_BOOLEAN] | TChar n => [K TOK_CHAR; lpar; Num n; rpar] | TCharVarying n => [K TOK_CHARACTER_VARYING; lpar; Num n; rpar]
  | TVarchar n => [K TOK_VARCHAR; lpar; Num n; rpar] | TDate => [K TOK_DATE] | TDatetime => [K TOK_DATETIME] | TTimestamp => [K TOK_TIMESTAMP]
  | TDecimal => [K TOK_DECIMAL] | TDecimal1 p => [K TOK_DECIMAL; lpar; Num p; rpar] | TDecimal2 p s => [K TOK_DECIMAL; lpar; Num p; comma; Num s; rpar]
  | TDouble => [K TOK_DOUBLE] | TFloat => [K TOK_FLOAT] | TInt => [K TOK_INT] | TInteger => [K TOK_INTEGER] | TLong => [K TOK_LONG] | TReal => [K TOK_REAL]
  | TSmallint => [K TOK_SMALLINT] | TText => [K TOK_TEXT] | TTime => [K TOK_TIME] | TTime1 p => [K TOK_TIME; lpar; Num p; rpar]
  end.
(** ColumnType(data_type, length, precision, scale). *)
Definition ctype_obj (t : ctype) : val :=
  match t with
  | TBigint => mk_column_type DT_BIGINT 0 0 0 | TBoolean => mk_column_type DT_BOOLEAN 0 0 0 | TChar n => mk_column_type DT_CHAR n 0 0
  | TCharVarying n | TVarchar n => mk_column_type DT_VARCHAR n 0 0 | TDate => mk_column_type DT_DATE 0 0 0 | TDatetime | TTimestamp => mk_column_type DT_DATETIME 0 0 0
  | TDecimal => mk_column_type DT_DECIMAL 0 0 0 | TDecimal1 p => mk_column_type DT_DECIMAL 0 p 0 | TDecimal2 p s => mk_column_type DT_DECIMAL 0 p s
  | TDouble => mk_column_type DT_DOUBLE 0 0 0 | TFloat => mk_column_type DT_FLOAT 0 0 0 | TInt | TInteger => mk_column_type DT_INT 0 0 0 | TLong => mk_column_type DT_LONG 0 0 0
  | TReal => mk_column_type DT_REAL 0 0 0 | TSmallint => mk_column_type DT_SMALLINT 0 0 0 | TText => mk_column_type DT_TEXT 0 0 0
  | TTime => mk_column_type DT_TIME 0 0 0 | TTime1 p => mk_column_type DT_TIME 0 p 0
  end.
(** Parts of an expression which are not themselves expressions: a subquery without its parentheses, the OVER clause of a function; of a FROM
    clause: a derived table without its parentheses. *)
Inductive kind := KQuery | KWindow | KTable.

Inductive ex :=
| XCol (n : bytes) | XQCol (t n : bytes) | XStar | XQStar (t : bytes)
| XInt (z : Z) | XFlt (f : bytes) | XStr (s : bytes) | XBool (b : bool) | XNull | XDate (s : bytes) | XInterval (z : Z) (u : unit_) (plural : bool)
| XIntervalText (s : bytes) (u : option unit_) (* INTERVAL 'text', INTERVAL 'text' UNIT *) | XParam
| XParen (e : ex)
| XUn (o : uop) (e : ex) | XBin (o : bop) (a b : ex)
| XIn (neg : bool) (e : ex) (l : list ex) | XInQ (neg : bool) (e : ex) (q : part) | XBetween (e a b : ex)
| XFun (schema : option bytes) (name : bytes) (distinct : bool) (args : list ex) (over : option part)
| XCast (e : ex) (t : ctype) | XExtract (u : unit_) (e : ex)
| XCase (w t : ex) (more : list (ex * ex)) (els : list ex) (* CASE WHEN w THEN t ...; [els] has at most one element *)
| XCaseOf (x w t : ex) (more : list (ex * ex)) (els : list ex)
| XArray (l : list ex) | XIndex (e : ex) (z : Z)
| XQ (q : part) | XExists (neg : bool) (q : part).

(** ** How it is written *)
Definition not_tok (b : bool) : tokens_ := if b then [K TOK_NOT] else [].
Definition when_ (w t : tokens_) : tokens_ := [K TOK_WHEN] ++ w ++ [K TOK_THEN] ++ t.
Fixpoint xtok (e : ex) : tokens_ :=
  match e with
  | XCol n => [Id n] | XQCol t n => [Id t; dot; Id n] | XStar => [K 42] | XQStar t => [Id t; dot; K 42]
  | XInt z => [Num z] | XFlt f => [(TOK_FLOATVAL, TVFlt f)] | XStr s => [(TOK_STRING, TVStr s)] | XBool b => [K (if b then TOK_TRUE else TOK_FALSE)]
  | XNull => [K TOK_NULL] | XDate s => [K TOK_DATE; (TOK_STRING, TVStr s)] | XInterval z u pl => [Num z; if pl then units_tok u else unit_tok u] | XIntervalText s u => [K TOK_INTERVAL; (TOK_STRING, TVStr s)] ++ opt (fun u => [unit_tok u]) u | XParam => [K 63]
  | XParen e => [lpar] ++ xtok e ++ [rpar]
  | XUn UNeg e => [K 45] ++ xtok e
  | XUn UNot e => [K TOK_NOT] ++ xtok e
  | XUn UIsNull e => xtok e ++ [K TOK_IS; K TOK_NULL]
  | XUn UISNULL e => xtok e ++ [K TOK_ISNULL]
  | XUn UIsNotNull e => xtok e ++ [K TOK_IS; K TOK_NOT; K TOK_NULL]
  | XBin o a b => xtok a ++ btok o ++ xtok b
  | XIn neg e l => xtok e ++ not_tok neg ++ [K TOK_IN; lpar] ++ commas (map xtok l) ++ [rpar]
  | XInQ neg e q => xtok e ++ not_tok neg ++ [K TOK_IN; lpar] ++ q_tok q ++ [rpar]
  | XBetween e a b => xtok e ++ [K TOK_BETWEEN] ++ xtok a ++ [K TOK_AND] ++ xtok b
  | XFun sc name d args ov => opt (fun s => [Id s; dot]) sc ++ [Id name; lpar] ++ (if d then [K TOK_DISTINCT] else []) ++ commas (map xtok args) ++ [rpar] ++ opt q_tok ov
  | XCast e t => [K TOK_CAST; lpar] ++ xtok e ++ [K TOK_AS] ++ ctype_tok t ++ [rpar]
  | XExtract u e => [K TOK_EXTRACT; lpar; unit_tok u; K TOK_FROM] ++ xtok e ++ [rpar]
  | XCase w t more els => [K TOK_CASE] ++ when_ (xtok w) (xtok t) ++ flat_map (fun p => when_ (xtok (fst p)) (xtok (snd p))) more ++ flat_map (fun e => [K TOK_ELSE] ++ xtok e) els ++ [K TOK_END]
  | XCaseOf x w t more els => [K TOK_CASE] ++ xtok x ++ when_ (xtok w) (xtok t) ++ flat_map (fun p => when_ (xtok (fst p)) (xtok (snd p))) more ++ flat_map (fun e => [K TOK_ELSE] ++ xtok e) els ++ [K TOK_END]
  | XArray l => [K TOK_ARRAY; K 91] ++ commas (map xtok l) ++ [K 93]
  | XIndex e z => xtok e ++ [K 91; Num z; K 93]
  | XQ q => [lpar] ++ q_tok q ++ [rpar]
  | XExists neg q => not_tok neg ++ [K TOK_EXISTS; lpar] ++ q_tok q ++ [rpar]
  end.

(** ** The object it denotes, with [k] parameters before it; and its number of parameters *)
Fixpoint xparams (e : ex) : nat :=
  match e with
  | XParam => 1
  | XParen e | XUn _ e | XCast e _ | XExtract _ e | XIndex e _ => xparams e
  | XBin _ a b => xparams a + xparams b
  | XIn _ e l => xparams e + list_sum (map xparams l)
  | XInQ _ e q => xparams e + q_params q
  | XBetween e a b => xparams e + xparams a + xparams b
  | XArray l => list_sum (map xparams l)
  | XFun _ _ _ l ov => list_sum (map xparams l) + match ov with Some p => q_params p | None => 0 end
  | XCase w t m els => xparams w + xparams t + list_sum (map (fun p => xparams (fst p) + xparams (snd p)) m) + list_sum (map xparams els)
  | XCaseOf x w t m els => xparams x + xparams w + xparams t + list_sum (map (fun p => xparams (fst p) + xparams (snd p)) m) + list_sum (map xparams els)
  | XQ q | XExists _ q => q_params q
  | _ => 0
  end.
Fixpoint xobj (e : ex) (k : nat) : val :=
  let objs l k := numbered_list xobj xparams l k in
  let whens m k := numbered_list (fun p k => case_elem (xobj (fst p) k) (xobj (snd p) (k + xparams (fst p)))) (fun p => xparams (fst p) + xparams (snd p)) m k in
  let pm (m : list (ex * ex)) := list_sum (map (fun p => xparams (fst p) + xparams (snd p)) m) in
  let neg_ (b : bool) v := if b then unop kOpNot v else v in
  match e with
  | XCol n => expr kExprColumnRef [(F_name, str n)]
  | XQCol t n => expr kExprColumnRef [(F_table, str t); (F_name, str n)]
  | XStar => expr kExprStar []
  | XQStar t => expr kExprStar [(F_table, str t)]
  | XInt z => int_lit z
  | XFlt f => expr kExprLiteralFloat [(F_fval, VFlt f)]
  | XStr s => expr kExprLiteralString [(F_name, str s)]
  | XBool b => bool_lit b
  | XNull => expr kExprLiteralNull []
  | XDate s => expr kExprLiteralDate [(F_name, str s)]
  | XInterval z u _ => interval z (unit_obj u)
  | XIntervalText s u => match interval_text s u with Some (n, f) => interval n f | None => VUninit end
  | XParam => expr kExprParameter [(F_ival, VInt (Z.of_nat k)); (F_ival2, VInt (Z.of_nat k))]
  | XParen e => xobj e k
  | XUn UNeg e => unop kOpUnaryMinus (xobj e k)
  | XUn UNot e => unop kOpNot (xobj e k)
  | XUn UIsNull e | XUn UISNULL e => unop kOpIsNull (xobj e k)
  | XUn UIsNotNull e => unop kOpNot (unop kOpIsNull (xobj e k))
  | XBin o a b => binop (xobj a k) (bobj o) (xobj b (k + xparams a))
  | XIn neg e l => neg_ neg (in_list (xobj e k) (vec (objs l (k + xparams e))))
  | XInQ neg e q => neg_ neg (in_select (xobj e k) (q_obj q (k + xparams e)))
  | XBetween e a b => expr kExprOperator [(F_opType, kOpBetween); (F_expr, xobj e k); (F_exprList, vec [xobj a (k + xparams e); xobj b (k + xparams e + xparams a)])]
  | XFun sc name d args ov =>
    func (match sc with Some s => str s | None => VNull end) (str name) (vec (objs args k)) (VBool d) (match ov with Some p => q_obj p (k + list_sum (map xparams args)) | None => VNull end)
  | XCast e t => cast (xobj e k) (ctype_obj t)
  | XExtract u e => expr kExprExtract [(F_datetimeField, unit_obj u); (F_expr, xobj e k)]
  | XCase w t m els =>
    let k1 := k + (xparams w + xparams t) in
    expr kExprOperator [(F_opType, kOpCase); (F_expr, VNull); (F_expr2, hd VNull (objs els (k1 + pm m))); (F_exprList, vec (case_elem (xobj w k) (xobj t (k + xparams w)) :: whens m k1))]
  | XCaseOf x w t m els =>
    let k0 := k + xparams x in let k1 := k0 + (xparams w + xparams t) in
    expr kExprOperator [(F_opType, kOpCase); (F_expr, xobj x k); (F_expr2, hd VNull (objs els (k1 + pm m))); (F_exprList, vec (case_elem (xobj w k0) (xobj t (k0 + xparams w)) :: whens m k1))]
  | XArray l => expr kExprArray [(F_exprList, vec (objs l k))]
  | XIndex e z => expr kExprArrayIndex [(F_expr, xobj e k); (F_ival, VInt z)]
  | XQ q => expr kExprSelect [(F_select, q_obj q k)]
  | XExists neg q => neg_ neg (exists_ (q_obj q k))
  end.

(** ** Where parentheses are needed *)
(** Strength of the operators: 1 OR, 2 AND, 4 NOT and NOT LIKE, 5 = <> LIKE ILIKE, 6 < > <= >=, 7 IS NULL, 8 + - (also unary), 9 * / %, 10 ^, 11 ||. *)
Definition blevel (o : bop) : nat :=
  match o with
  | BOr => 1 | BAnd => 2 | BNotLike => 4 | BEq | BEqEq | BNe | BLike | BILike => 5 | BLt | BGt | BLe | BGe => 6 | BPlus | BMinus => 8 | BStar | BSlash | BPercent => 9 | BCaret => 10 | BConcat => 11
  end.
Definition logical (o : bop) : bool := match o with BAnd | BOr => true | _ => false end.
(** The weakest operator open to the left of an expression (12: none), i.e. whose operand could be taken by an operator written before it; and to the right. *)
Fixpoint xleft (e : ex) : nat :=
  match e with
  | XBin o a _ => Nat.min (blevel o) (xleft a)
  | XUn UNeg _ | XUn UNot _ => 12
  | XUn _ e => Nat.min 7 (xleft e)
  | XIn neg e _ | XInQ neg e _ => if neg then Nat.min 4 (xleft e) else xleft e
  | XBetween e _ _ | XIndex e _ => xleft e
  | _ => 12
  end.
Fixpoint xright (e : ex) : nat :=
  match e with
  | XBin o _ b => Nat.min (blevel o) (xright b)
  | XUn UNeg e => Nat.min 8 (xright e)
  | XUn UNot e => Nat.min 4 (xright e)
  | XBetween _ _ b => xright b
  | _ => 12
  end.
(** AND, OR, IN, BETWEEN and EXISTS are operands of AND and OR only. *)
Definition operand (e : ex) : bool := match e with XBin o _ _ => negb (logical o) | XIn _ _ _ | XInQ _ _ _ | XBetween _ _ _ | XExists _ _ => false | _ => true end.
(** Least strength of what is open on the right of the left operand, and on the left of the right operand: logical, additive, multiplicative, power and
    concatenation operators associate to the left; comparisons do not associate. *)
Definition left_level (o : bop) : nat := match o with BNotLike => 5 | BEq | BEqEq | BNe | BLike | BILike => 6 | BLt | BGt | BLe | BGe => 7 | _ => blevel o end.
Definition right_level (o : bop) : nat := match o with BNotLike => 6 | _ => S (blevel o) end.
(** [fits e]: every operand is strong enough for its place, lists are not empty, date literals are well-formed. *)
Fixpoint fits (e : ex) : bool :=
  match e with
  | XParen e | XCast e _ | XExtract _ e => fits e
  | XIndex e _ => fits e && operand e && (12 <=? xright e)
  | XUn o e => fits e && operand e && match o with UNeg => 9 <=? xleft e | UNot => 4 <=? xleft e | _ => 7 <=? xright e end
  | XBin o a b => fits a && fits b && (logical o || operand a && operand b) && (left_level o <=? xright a) && (right_level o <=? xleft b)
  | XIn neg e l => fits e && operand e && implb neg (5 <=? xright e) && forallb fits l && match l with [] => false | _ => true end
  | XInQ neg e _ => fits e && operand e && implb neg (5 <=? xright e)
  | XBetween e a b => fits e && fits a && fits b && operand e && operand a && operand b
  | XFun _ _ d l _ => forallb fits l && implb d (match l with [] => false | _ => true end)
  | XArray l => forallb fits l && match l with [] => false | _ => true end
  | XCase w t m els => fits w && fits t && forallb (fun p => fits (fst p) && fits (snd p)) m && forallb fits els && (List.length els <=? 1)
  | XCaseOf x w t m els => fits x && fits w && fits t && forallb (fun p => fits (fst p) && fits (snd p)) m && forallb fits els && (List.length els <=? 1)
  | XDate s => scan_date s
  | XIntervalText s u => match interval_text s u with Some _ => true | None => false end
  | _ => true
  end.
Definition exprs_stack (l : list nat) : nat := list_stack (map (Nat.max 2) l). (* an element is followed by an optional alias *)
(** The parser stack entries used. *)
Fixpoint xstack (e : ex) : nat :=
  match e with
  | XQCol _ _ | XQStar _ => 3
  | XDate _ | XInterval _ _ _ | XIntervalText _ None => 2
  | XIntervalText _ (Some _) => 3
  | XParen e => stack [1; xstack e; 1]
  | XUn UNeg e | XUn UNot e => stack [1; xstack e]
  | XUn _ e => stack [xstack e; 1; 1; 1]
  | XBin BNotLike a b => stack [xstack a; 1; 1; xstack b]
  | XBin _ a b => stack [xstack a; 1; xstack b]
  | XIn neg e l => stack ([xstack e; 1; 1] ++ (if neg then [1] else []) ++ [exprs_stack (map xstack l); 1])
  | XInQ neg e q => stack ([xstack e; 1; 1] ++ (if neg then [1] else []) ++ [q_stack q; 1])
  | XBetween e a b => stack [xstack e; 1; xstack a; 1; xstack b]
  | XFun None _ _ l ov => stack [1; 1; 1; exprs_stack (map xstack l); 1; match ov with Some p => q_stack p | None => 1 end]
  | XFun (Some _) _ _ l ov => stack [1; 1; 1; 1; 1; exprs_stack (map xstack l); 1; match ov with Some p => q_stack p | None => 1 end]
  | XCast e t => stack [1; 1; xstack e; 1; 6; 1]
  | XExtract _ e => stack [1; 1; 1; 1; xstack e; 1]
  | XCase w t m els => stack [1; Nat.max (stack [1; xstack w; 1; xstack t]) (fold_right Nat.max 1 (map (fun p => stack [1; 1; xstack (fst p); 1; xstack (snd p)]) m)); 1; fold_right Nat.max 1 (map xstack els); 1]
  | XCaseOf x w t m els =>
    stack [1; xstack x; Nat.max (stack [1; xstack w; 1; xstack t]) (fold_right Nat.max 1 (map (fun p => stack [1; 1; xstack (fst p); 1; xstack (snd p)]) m)); 1; fold_right Nat.max 1 (map xstack els); 1]
  | XArray l => stack [1; 1; exprs_stack (map xstack l); 1]
  | XIndex e _ => stack [xstack e; 1; 1; 1]
  | XQ q => stack [1; q_stack q; 1]
  | XExists neg q => stack ((if neg then [1] else []) ++ [1; 1; q_stack q; 1])
  | _ => 1
  end.
(** The parts occurring in an expression. *)
Fixpoint xparts (e : ex) : list (kind * part) :=
  match e with
  | XParen e | XCast e _ | XExtract _ e | XIndex e _ | XUn _ e => xparts e
  | XBin _ a b => xparts a ++ xparts b
  | XIn _ e l => xparts e ++ flat_map xparts l
  | XInQ _ e q => xparts e ++ [(KQuery, q)]
  | XBetween e a b => xparts e ++ xparts a ++ xparts b
  | XFun _ _ _ l ov => flat_map xparts l ++ match ov with Some p => [(KWindow, p)] | None => [] end
  | XArray l => flat_map xparts l
  | XCase w t m els => xparts w ++ xparts t ++ flat_map (fun p => xparts (fst p) ++ xparts (snd p)) m ++ flat_map xparts els
  | XCaseOf x w t m els => xparts x ++ xparts w ++ xparts t ++ flat_map (fun p => xparts (fst p) ++ xparts (snd p)) m ++ flat_map xparts els
  | XQ q | XExists _ q => [(KQuery, q)]
  | _ => []
  end.
