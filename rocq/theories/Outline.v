(** Specification: what printing a statement shows, as a function of the statement as it is written (Stmt.v, Expr.v).  Independent of the printing
    functions of /repo (src/util/sqlhelper.cpp), whose output format is described here; only the representation of output lines ([line], [piece])
    is shared with their model (Print.v). *)
From Verif Require Import Base TokenCodes LexModel Ast Heap Actions ParseModel Grammar Sem Part Expr Stmt Legal Print.
From Coq Require Import String. Import ListNotations.
Local Open Scope nat_scope.
Local Notation length := List.length.

(** A line at depth [d]: a fixed word, a text of the input, an integer (followed by two blanks). *)
Definition word (d : nat) (s : string) : line := Out d [PTxt (la s)].
Definition said_ (d : nat) (s : bytes) : line := Out d [PTxt s].
Definition int_line (d : nat) (z : Z) : line := Out d [PInt z; PTxt (la "  ")].
(** The elements of a list, their parameters numbered from left to right. *)
Section Lines.
Context {A : Type} (f : A -> nat -> list line) (params : A -> nat).
Fixpoint lines_of (l : list A) (k : nat) : list line := match l with [] => [] | x :: l' => f x k ++ lines_of l' (k + params x) end.
End Lines.

Definition bname (o : bop) : string :=
  match o with
  | BMinus => "-" | BPlus => "+" | BSlash => "/" | BStar => "*" | BPercent => "%" | BCaret => "^" | BConcat => "CONCAT" | BLike => "LIKE" | BNotLike => "NOT LIKE" | BILike => "ILIKE"
  | BEq | BEqEq => "=" | BNe => "!=" | BLt => "<" | BGt => ">" | BLe => "<=" | BGe => ">=" | BAnd => "AND" | BOr => "OR"
  end.
Definition unit_name (u : unit_) : string := match u with Second => "SECOND" | Minute => "MINUTE" | Hour => "HOUR" | Day => "DAY" | Month => "MONTH" | Year => "YEAR" end.
(** The name of the unit in the text of an interval. *)
Definition field_name (f : val) : string := match find (fun u => is_enum f (unit_obj u)) [Second; Minute; Hour; Day; Month; Year] with Some u => unit_name u | None => "None" end.
Definition ctype_line (t : ctype) : list piece :=
  let w s := [PTxt (la s)] in
  match t with
  | TBigint => w "BIGINT" | TBoolean => w "BOOLEAN" | TChar n => [PTxt (la "CHAR("); PInt n; PTxt (la ")")] | TCharVarying n | TVarchar n => [PTxt (la "VARCHAR("); PInt n; PTxt (la ")")]
  | TDate => w "DATE" | TDatetime | TTimestamp => w "DATETIME" | TDecimal | TDecimal1 _ | TDecimal2 _ _ => w "DECIMAL" | TDouble => w "DOUBLE" | TFloat => w "FLOAT"
  | TInt | TInteger => w "INT" | TLong => w "LONG" | TReal => w "REAL" | TSmallint => w "SMALLINT" | TText => w "TEXT" | TTime | TTime1 _ => w "TIME"
  end%string.

Section Outline.
(** The outlines of subqueries and windows, at parameter number and depth (see [coherent]). *)
Variable sub : kind * part -> nat -> nat -> list line.

(** ** Expressions: the operator or function, its operands one level deeper.  Parentheses, the negation of an operator (printed as NOT), the schema
    and DISTINCT of a function leave no trace; EXISTS and IN are printed without their subqueries; of a CASE with ELSE only the operand and the
    ELSE are printed; an array has no line of its own; an index comes after its array. *)
Fixpoint xlines (e : ex) (k d : nat) : list line :=
  let whens m k d := lines_of (fun p k => word d "CASE LIST ELEMENT" :: xlines (fst p) k (d + 1) ++ xlines (snd p) (k + xparams (fst p)) (d + 1)) (fun p => xparams (fst p) + xparams (snd p)) m k in
  let pm (m : list (ex * ex)) := list_sum (map (fun p => xparams (fst p) + xparams (snd p)) m) in
  let negated (b : bool) (f : nat -> list line) := if b then word d "NOT" :: f (d + 1) else f d in
  match e with
  | XCol n => [said_ d n]
  | XQCol t n => [said_ d n; word (d + 1) "Table:"; said_ (d + 2) t]
  | XStar | XQStar _ => [word d "*"]
  | XInt z => [int_line d z]
  | XFlt f => [Out d [PDbl f]]
  | XStr s | XDate s => [said_ d s]
  | XBool b => [int_line d (if b then 1 else 0)]
  | XNull => [word d "NULL"]
  | XInterval z u _ => [word d "INTERVAL"; int_line (d + 1) z; word (d + 1) (unit_name u)]
  | XIntervalText s u => match interval_text s u with Some (z, f) => [word d "INTERVAL"; int_line (d + 1) z; word (d + 1) (field_name f)] | None => [] end
  | XParam => [int_line d (Z.of_nat k)]
  | XParen e => xlines e k d
  | XUn UNeg e => word d "-" :: xlines e k (d + 1)
  | XUn UNot e => word d "NOT" :: xlines e k (d + 1)
  | XUn UIsNull e | XUn UISNULL e => word d "IS NULL" :: xlines e k (d + 1)
  | XUn UIsNotNull e => word d "NOT" :: word (d + 1) "IS NULL" :: xlines e k (d + 2)
  | XBin o a b => word d (bname o) :: xlines a k (d + 1) ++ xlines b (k + xparams a) (d + 1)
  | XIn neg e l => negated neg (fun d => word d "IN" :: xlines e k (d + 1) ++ lines_of (fun x k => xlines x k (d + 1)) xparams l (k + xparams e))
  | XInQ neg e _ => negated neg (fun d => word d "IN" :: xlines e k (d + 1))
  | XBetween e a b => word d "BETWEEN" :: xlines e k (d + 1) ++ xlines a (k + xparams e) (d + 1) ++ xlines b (k + xparams e + xparams a) (d + 1)
  | XFun _ n _ args ov => said_ d n :: lines_of (fun x k => xlines x k (d + 1)) xparams args k ++ match ov with Some p => sub (KWindow, p) (k + list_sum (map xparams args)) (d + 1) | None => [] end
  | XCast e t => word d "CAST" :: Out (d + 1) (ctype_line t) :: xlines e k (d + 1)
  | XExtract u e => word d "EXTRACT" :: word (d + 1) (unit_name u) :: xlines e k (d + 1)
  | XCase w t m els =>
    let k1 := k + (xparams w + xparams t) in
    word d "CASE" :: match els with
                     | x :: _ => xlines x (k1 + pm m) (d + 1)
                     | [] => word (d + 1) "CASE LIST ELEMENT" :: xlines w k (d + 2) ++ xlines t (k + xparams w) (d + 2) ++ whens m k1 (d + 1)
                     end
  | XCaseOf x w t m els =>
    let k0 := k + xparams x in let k1 := k0 + (xparams w + xparams t) in
    word d "CASE" :: xlines x k (d + 1) ++ match els with
                     | x :: _ => xlines x (k1 + pm m) (d + 1)
                     | [] => word (d + 1) "CASE LIST ELEMENT" :: xlines w k0 (d + 2) ++ xlines t (k0 + xparams w) (d + 2) ++ whens m k1 (d + 1)
                     end
  | XArray l => lines_of (fun x k => xlines x k (d + 1)) xparams l k
  | XIndex e z => xlines e k (d + 1) ++ [int_line d z]
  | XQ q => sub (KQuery, q) k d
  | XExists neg _ => negated neg (fun d => [word d "EXISTS"])
  end.

(** ** Lists of expressions, ORDER BY, windows *)
Definition item_lines (i : item) (k d : nat) : list line := xlines (i_ex i) k d ++ match i_alias i with Some a => [word (d + 1) "Alias"; said_ (d + 2) (a_name a)] | None => [] end.
Definition iparams (i : item) : nat := xparams (i_ex i).
Definition ord_lines (o : ord) (k d : nat) : list line := xlines (o_ex o) k d ++ [word d match o_dir o with Some Descending => "descending" | _ => "ascending" end].
Definition oparams (o : ord) : nat := xparams (o_ex o).
(** Under a heading, if there is anything. *)
Definition headed {A} (d : nat) (s : string) (l : list A) (lines : list line) : list line := match l with [] => [] | _ => word d s :: lines end.
Definition bound_pieces (b : fbound) : list piece :=
  match b with
  | BUnboundedPreceding => [PTxt (la "UNBOUNDED"); PTxt (la " "); PTxt (la "PRECEDING")] | BPreceding n => [PInt n; PTxt (la " "); PTxt (la "PRECEDING")]
  | BUnboundedFollowing => [PTxt (la "UNBOUNDED"); PTxt (la " "); PTxt (la "FOLLOWING")] | BFollowing n => [PInt n; PTxt (la " "); PTxt (la "FOLLOWING")]
  | BCurrent => [PTxt (la "CURRENT ROW")]
  end.
Definition frame_line (f : option (ftype * fclause)) : list piece :=
  let fr (t : ftype) a b := [PTxt (la match t with FRange => "RANGE" | FRows => "ROWS" | FGroups => "GROUPS" end); PTxt (la " BETWEEN ")] ++ bound_pieces a ++ [PTxt (la " AND ")] ++ bound_pieces b in
  match f with None => fr FRange BUnboundedPreceding BCurrent | Some (t, FSingle b) => fr t b BCurrent | Some (t, FBetween a b) => fr t a b end.
Definition window_lines (w : window) (k d : nat) : list line :=
  word d "OVER" :: headed (d + 1) "PARTITION BY" (w_part w) (lines_of (fun i k => item_lines i k (d + 2)) iparams (w_part w) k) ++
  headed (d + 1) "ORDER BY" (w_order w) (lines_of (fun o k => ord_lines o k (d + 2)) oparams (w_order w) (k + list_sum (map iparams (w_part w)))) ++ [Out (d + 1) (frame_line (w_frame w))].

(** ** FROM: tables with their schema and alias, joins with both sides and the condition (neither the kind of the join nor the columns of USING) *)
Definition talias_lines (a : option talias) (d : nat) : list line :=
  match a with
  | None => []
  | Some (TAlias a) => [word (d + 1) "Alias"; said_ (d + 2) (a_name a)]
  | Some (TColumns n cols) => word (d + 1) "Alias" :: said_ (d + 2) n :: map (said_ (d + 3)) cols
  end.
Fixpoint tref_lines (r : tref) (k d : nat) : list line :=
  let joined l r k cond := word d "Join Table" :: word (d + 1) "Left" :: tref_lines l k (d + 2) ++ word (d + 1) "Right" :: tref_lines r (k + q_params (p_tref l)) (d + 2) ++ word (d + 1) "Join Condition" :: cond in
  match r with
  | RTable t a => said_ d (t_name t) :: match t_schema t with Some s => [word (d + 1) "Schema"; said_ (d + 2) s] | None => [] end ++ talias_lines a d
  | RSelect p a => sub (KTable, p) k d ++ talias_lines a d
  | RNatural l r | RUsing l _ r _ => joined l r k []
  | ROn l _ r e => joined l r k (xlines e (k + q_params (p_tref l) + q_params (p_tref r)) (d + 2))
  end.

(** ** SELECT *)
Definition lock_lines (l : lock) (d : nat) : list line :=
  [word (d + 2) "Type"; word (d + 3) match k_mode l with LUpdate => "FOR UPDATE" | LNoKeyUpdate => "FOR NO KEY UPDATE" | LShare => "FOR SHARE" | LKeyShare => "FOR KEY SHARE" end] ++
  headed (d + 2) "Target tables:" (k_tables l) (map (said_ (d + 3)) (k_tables l)) ++
  match k_policy l with PNone => [] | PNowait => [word (d + 2) "Waiting policy: "; word (d + 3) "NOWAIT"] | PSkip => [word (d + 2) "Waiting policy: "; word (d + 3) "SKIP LOCKED"] end.
(** The expressions of LIMIT and OFFSET, with their parameter numbers. *)
Definition lim_parts_ (l : lim) (k : nat) : option (ex * nat) * option (ex * nat) :=
  match l with
  | LNone | LAll => (None, None) | LLimit e => (Some (e, k), None) | LOffset e | LAllOffset e => (None, Some (e, k)) | LBoth a b => (Some (a, k), Some (b, k + xparams a))
  end.
Definition opt_lines (d : nat) (s : string) (o : option (ex * nat)) : list line := match o with Some (e, k) => word (d + 1) s :: xlines e k (d + 2) | None => [] end.
Definition order_lines (s : string) (o : list ord) (k d : nat) : list line := headed (d + 1) s o (lines_of (fun o k => ord_lines o k (d + 2)) oparams o k).
Definition from_params (l : list tref) : nat := list_sum (map (fun r => q_params (p_tref r)) l).
(** Fields, sources, conditions, grouping. *)
Definition clause_lines (c : clause) (k d : nat) : list line :=
  let k1 := k + list_sum (map iparams (c_items c)) in let k2 := k1 + from_params (c_from c) in let k3 := k2 + match c_where c with Some e => xparams e | None => 0 end in
  word (d + 1) "Fields:" :: lines_of (fun i k => item_lines i k (d + 2)) iparams (c_items c) k ++
  headed (d + 1) "Sources:" (c_from c) (lines_of (fun r k => tref_lines r k (d + 2)) (fun r => q_params (p_tref r)) (c_from c) k1) ++
  match c_where c with Some e => word (d + 1) "Search Conditions:" :: xlines e k2 (d + 2) | None => [] end ++
  headed (d + 1) "GroupBy:" (c_group c) (lines_of (fun i k => item_lines i k (d + 2)) iparams (c_group c) k3 ++
    match c_having c with Some e => word (d + 1) "Having:" :: xlines e (k3 + list_sum (map iparams (c_group c))) (d + 2) | None => [] end).
(** A select in the order in which it is printed: its clauses, locks, set operations, order, limits. *)
Record shown_select := mkShown { s_head : nat -> list line; s_locks : list lock; s_sets : list (nat -> list line); s_tail : nat -> list line }.
Definition select_shown (s : shown_select) (d : nat) : list line :=
  word d "SelectStatement" :: s_head s d ++ headed (d + 1) "Lock Info:" (s_locks s) (flat_map (fun l => lock_lines l d) (s_locks s)) ++ flat_map (fun f => f d) (s_sets s) ++ s_tail s d.
(** TOP is printed as the limit of its own clause, unless a LIMIT follows. *)
Definition top_lines (t : option Z) (d : nat) : list line := match t with Some z => [word (d + 1) "Limit:"; int_line (d + 2) z] | None => [] end.
Definition limit_lines (t : option Z) (l : lim) (k d : nat) : list line :=
  match l with LNone => top_lines t d | _ => opt_lines d "Limit:" (fst (lim_parts_ l k)) ++ opt_lines d "Offset:" (snd (lim_parts_ l k)) end.
Definition set_lines (o : setop) (nested : shown_select) (ord : list ord) (l : lim) (k d : nat) : list line :=
  let k' := k + list_sum (map oparams ord) in
  word (d + 1) match o with Union => "Union:" | Intersect => "Intersect:" | Except => "Except:" end :: select_shown nested (d + 2) ++ order_lines "SetResultOrderBy:" ord k d ++
  opt_lines d "SetResultLimit:" (fst (lim_parts_ l k')) ++ opt_lines d "SetResultOffset:" (snd (lim_parts_ l k')).
Definition add_set (s : shown_select) (f : nat -> list line) : shown_select := mkShown (s_head s) (s_locks s) (s_sets s ++ [f]) (s_tail s).
Fixpoint query_shown (q : query) (k : nat) : shown_select :=
  match q with
  | QSelect c o l locks =>
    let k1 := k + q_params (p_clause c) in
    mkShown (clause_lines c k) locks [] (fun d => order_lines "OrderBy:" o k1 d ++ limit_lines (c_top c) l (k1 + list_sum (map oparams o)) d)
  | QSet c s _ r o l locks =>
    let k1 := k + q_params (p_clause c) in
    mkShown (clause_lines c k) locks [set_lines s (operand_shown r k1) o l (k1 + q_params (p_operand r))] (top_lines (c_top c))
  end
with pquery_shown (p : pquery) (k : nat) : shown_select := match p with PQuery q => query_shown q k | PParen p => pquery_shown p k end
with operand_shown (r : operand_) (k : nat) : shown_select :=
  match r with
  | OParen p => pquery_shown p k
  | OSelect c => mkShown (clause_lines c k) [] [] (top_lines (c_top c))
  | OSet c s _ r => let k1 := k + q_params (p_clause c) in mkShown (clause_lines c k) [] [set_lines s (operand_shown r k1) [] LNone (k1 + q_params (p_operand r))] (top_lines (c_top c))
  end.
(** Common table expressions are not printed. *)
Definition select_lines (w : withs) (s : select) (k d : nat) : list line :=
  let k := k + q_params (p_withs w) in
  select_shown match s with
               | SQuery q => query_shown q k
               | SParen p => pquery_shown p k
               | SSet p o _ r ord l => let k1 := k + q_params (p_pquery p) in add_set (pquery_shown p k) (set_lines o (operand_shown r k1) ord l (k1 + q_params (p_operand r)))
               end d.

(** ** Statements *)
Definition lit_lines (l : xlit) (d : nat) : list line :=
  match l with
  | XLit l => xlines (lit_ex l) 0 d
  | XNegInt z => word d "-" :: xlines (XInt z) 0 (d + 1) | XNegFloat f => word d "-" :: xlines (XFlt f) 0 (d + 1)
  | XNegInterval z u p => word d "-" :: xlines (XInterval z u p) 0 (d + 1) | XNegIntervalText s u => word d "-" :: xlines (XIntervalText s u) 0 (d + 1)
  end.
Definition clit_lines (l : clit) (d : nat) : list line := match l with CPlain l => lit_lines l d | CCast l t => word d "CAST" :: Out (d + 1) (ctype_line t) :: lit_lines l (d + 1) end.
Definition file_type_name (f : val) : string := if is_enum f kImportCSV then "CSV" else if is_enum f kImportTbl then "TBL" else if is_enum f kImportBinary then "BINARY" else "AUTO".
Definition format_name (o : list copt) : string := file_type_name (hd kImportAuto (formats o)).
Definition where_lines (w : option ex) (k : nat) : list line := match w with Some e => word 1 "WHERE:" :: xlines e k 2 | None => [] end.
(** UPDATE, DELETE, DROP, ALTER, PREPARE, EXECUTE and SHOW print nothing; of a CREATE the name and the file are printed. *)
Definition stmt_lines (s : stmt) (k : nat) : list line :=
  match s with
  | SSelect w s => select_lines w s k 0
  | SInsert t cols vals => word 0 "InsertStatement" :: said_ 1 (t_name t) :: headed 1 "Columns" cols (map (said_ 2) cols) ++ word 1 "Values" :: flat_map (fun l => clit_lines l 2) vals
  | SInsertQuery t cols q => word 0 "InsertStatement" :: said_ 1 (t_name t) :: headed 1 "Columns" cols (map (said_ 2) cols) ++ select_shown (query_shown q k) 1
  | SCreateTable _ t _ | SCreateTableAs _ t _ _ | SCreateView _ t _ _ _ | SCreateIndex _ _ t _ => [word 0 "CreateStatement"; said_ 1 (t_name t)]
  | SCreateTableFile _ t _ file => [word 0 "CreateStatement"; said_ 1 (t_name t); said_ 1 file]
  | STransaction t _ => [word 0 "TransactionStatement"; word 1 match t with TBegin => "BEGIN" | TCommit => "COMMIT" | TRollback => "ROLLBACK" end]
  | SImport ty file t => [word 0 "ImportStatement"; said_ 1 file; word 1 match file_type ty with Some f => file_type_name f | None => "" end; said_ 1 (t_name t)]
  | SCopyFrom t file _ o w => [word 0 "ImportStatement"; said_ 1 file; word 1 (format_name o); said_ 1 (t_name t)] ++ where_lines w k
  | SCopyTo t file _ o => [word 0 "ExportStatement"; said_ 1 file; word 1 (format_name o); said_ 1 (t_name t)]
  | SCopyQueryTo q file _ o => [word 0 "ExportStatement"; said_ 1 file; word 1 (format_name o)] ++ select_shown (pquery_shown q k) 1
  | _ => []
  end.
(** A script: one outline per statement (its parameters numbered through). *)
Fixpoint script_lines (l : list (stmt * list hint)) (k : nat) : list (list line) :=
  match l with [] => [] | (s, h) :: l' => stmt_lines s k :: script_lines l' (k + q_params (p_hinted (s, h))) end.
(** The outlines of the (well-formed) subqueries and windows are those of the queries and windows themselves. *)
Definition well_formed (p : part) (parts : list (kind * part)) : Prop := (forall k, q_ok p k = true) /\ (forall c, In c parts -> legal c).
Definition coherent : Prop :=
  (forall q k d, query_ok q = true -> well_formed (p_query q) (query_parts q) -> sub (KQuery, p_query q) k d = select_shown (query_shown q k) d) /\
  (forall w k d, window_ok w = true -> well_formed (p_window w) (window_parts w) -> sub (KWindow, p_window w) k d = window_lines w k d) /\
  (forall w s k d, select_ok w s = true -> well_formed (p_select w s) (select_parts w s) -> sub (KTable, p_select w s) k d = select_lines w s k d).
End Outline.
