(** Specification: the statements of the SQL dialect, how they are written and which objects they denote (README / docs/syntax.md / src/sql/*.h).
    Independent of the parser.  Every [p_...] function gives for a piece of abstract syntax its text and its object (Part.v). *)
From Verif Require Import Base TokenCodes LexModel Ast Heap Actions ParseModel Grammar Sem Part Expr.
Local Open Scope nat_scope.

Definition pex (e : ex) : part := mkPart (xtok e) (xobj e) (fun _ => true) (xparams e) (xstack e).
Definition ident_list (l : list bytes) : part := plist (map pid l).

(** ** Names *)
Record tname := mkTN { t_schema : option bytes; t_name : bytes }.
Definition schema_of (t : tname) : val := match t_schema t with Some s => str s | None => VNull end.
Definition name_of (t : tname) : val := str (t_name t).
Definition p_tname (t : tname) : part :=
  match t_schema t with
  | None => seq_ (fun v => mk_table_name VNull (arg 1 v)) [pid (t_name t)]
  | Some s => seq_ (fun v => mk_table_name (arg 1 v) (arg 3 v)) [pid s; kw 46; pid (t_name t)]
  end.
(** Aliases, with or without AS. *)
Record alias_ := mkAlias { a_as : bool; a_name : bytes }.
Definition p_alias (a : alias_) : part :=
  if a_as a then seq_ (fun v => obj CAlias [(F_name, arg 2 v)]) [kw TOK_AS; pid (a_name a)] else seq_ (fun v => obj CAlias [(F_name, arg 1 v)]) [pid (a_name a)].
Definition p_opt_alias (a : option alias_) : part := match a with Some a => p_alias a | None => nothing VNull end.
Inductive talias := TAlias (a : alias_) | TColumns (n : bytes) (cols : list bytes).
Definition p_talias (a : option talias) : part :=
  match a with
  | None => nothing VNull
  | Some (TAlias a) => p_alias a
  | Some (TColumns n cols) => seq_ (fun v => obj CAlias [(F_name, arg 2 v); (F_columns, arg 4 v)]) [kw TOK_AS; pid n; kw 40; ident_list cols; kw 41]
  end.
(** An expression of a select list. *)
Record item := mkItem { i_ex : ex; i_alias : option alias_ }.
Definition p_item (i : item) : part :=
  seq_ (fun v => match i_alias i with Some _ => with_ [(F_alias, fget F_name (arg 2 v))] (arg 1 v) | None => arg 1 v end) [pex (i_ex i); p_opt_alias (i_alias i)].

(** ** ORDER BY, LIMIT, locking, windows *)
Inductive dir := Ascending | Descending.
Record ord := mkOrd { o_ex : ex; o_dir : option dir; o_nulls : option (bytes * bytes) }.
Definition p_dir (d : option dir) : part :=
  match d with
  | Some Ascending => seq_ (fun _ => kOrderAsc) [kw TOK_ASC]
  | Some Descending => seq_ (fun _ => kOrderDesc) [kw TOK_DESC]
  | None => nothing kOrderAsc
  end.
(** NULLS FIRST, NULLS LAST (any letter case). *)
Definition p_nulls (n : option (bytes * bytes)) : part :=
  match n with
  | None => nothing NullOrdering_Undefined
  | Some (a, b) =>
    seqp (fun _ => if casecmp b (la "first") then NullOrdering_First else NullOrdering_Last)
         (fun _ => casecmp a (la "nulls") && (casecmp b (la "first") || casecmp b (la "last"))) [pid a; pid b]
  end.
Definition p_ord (o : ord) : part :=
  seq_ (fun v => obj COrderDescription [(F_type, arg 2 v); (F_expr, arg 1 v); (F_null_ordering, arg 3 v)]) [pex (o_ex o); p_dir (o_dir o); p_nulls (o_nulls o)].
Definition p_order (l : list ord) : part := match l with [] => nothing VNull | _ => seq_ (arg 3) [kw TOK_ORDER; kw TOK_BY; plist (map p_ord l)] end.
Inductive lim := LNone | LLimit (e : ex) | LOffset (e : ex) | LBoth (l o : ex) | LAll | LAllOffset (o : ex).
Definition p_limit (l : lim) : part :=
  match l with
  | LNone => nothing VNull
  | LLimit e => seq_ (fun v => limit (arg 2 v) VNull) [kw TOK_LIMIT; pex e]
  | LOffset e => seq_ (fun v => limit VNull (arg 2 v)) [kw TOK_OFFSET; pex e]
  | LBoth l o => seq_ (fun v => limit (arg 2 v) (arg 4 v)) [kw TOK_LIMIT; pex l; kw TOK_OFFSET; pex o]
  | LAll => seq_ (fun v => limit VNull VNull) [kw TOK_LIMIT; kw TOK_ALL]
  | LAllOffset o => seq_ (fun v => limit VNull (arg 4 v)) [kw TOK_LIMIT; kw TOK_ALL; kw TOK_OFFSET; pex o]
  end.
Inductive lockmode := LUpdate | LNoKeyUpdate | LShare | LKeyShare.
Inductive lockpolicy := PSkip | PNowait | PNone.
Record lock := mkLock { k_mode : lockmode; k_tables : list bytes; k_policy : lockpolicy }.
Definition p_mode (m : lockmode) : part :=
  match m with
  | LUpdate => seq_ (fun _ => ForUpdate) [kw TOK_UPDATE]
  | LNoKeyUpdate => seq_ (fun _ => ForNoKeyUpdate) [kw TOK_NO; kw TOK_KEY; kw TOK_UPDATE]
  | LShare => seq_ (fun _ => ForShare) [kw TOK_SHARE]
  | LKeyShare => seq_ (fun _ => ForKeyShare) [kw TOK_KEY; kw TOK_SHARE]
  end.
Definition p_policy (p : lockpolicy) : part :=
  match p with PSkip => seq_ (fun _ => SkipLocked) [kw TOK_SKIP; kw TOK_LOCKED] | PNowait => seq_ (fun _ => NoWait) [kw TOK_NOWAIT] | PNone => nothing LockNone end.
Definition p_lock (l : lock) : part :=
  match k_tables l with
  | [] => seq_ (fun v => obj CLockingClause [(F_rowLockMode, arg 2 v); (F_rowLockWaitPolicy, arg 3 v)]) [kw TOK_FOR; p_mode (k_mode l); p_policy (k_policy l)]
  | ts => seq_ (fun v => obj CLockingClause [(F_rowLockMode, arg 2 v); (F_tables, arg 4 v); (F_rowLockWaitPolicy, arg 5 v)]) [kw TOK_FOR; p_mode (k_mode l); kw TOK_OF; ident_list ts; p_policy (k_policy l)]
  end.
(** Consecutive parts as a list. *)
Definition row_stack (l : list nat) : nat := fold_right (fun m n => Nat.max (1 + m) n) 1 l.
Definition prow (ps : list part) : part := mkPart (flat_map q_tok ps) (fun k => vec (values ps k)) (all_ok ps) (total ps) (row_stack (map q_stack ps)).
Definition p_locks (l : list lock) : part := match l with [] => nothing VNull | _ => prow (map p_lock l) end.

Inductive ftype := FRange | FRows | FGroups.
Inductive fbound := BUnboundedPreceding | BPreceding (n : Z) | BUnboundedFollowing | BFollowing (n : Z) | BCurrent.
Inductive fclause := FSingle (b : fbound) | FBetween (a b : fbound).
Record window := mkWin { w_part : list item; w_order : list ord; w_frame : option (ftype * fclause) }.
Definition p_ftype (t : ftype) : part := match t with FRange => seq_ (fun _ => kRange) [kw TOK_RANGE] | FRows => seq_ (fun _ => kRows) [kw TOK_ROWS] | FGroups => seq_ (fun _ => kGroups) [kw TOK_GROUPS] end.
Definition p_bound (b : fbound) : part :=
  match b with
  | BUnboundedPreceding => seq_ (fun _ => bound 0 kPreceding true) [kw TOK_UNBOUNDED; kw TOK_PRECEDING]
  | BPreceding n => seq_ (fun _ => bound n kPreceding false) [pnum n; kw TOK_PRECEDING]
  | BUnboundedFollowing => seq_ (fun _ => bound 0 kFollowing true) [kw TOK_UNBOUNDED; kw TOK_FOLLOWING]
  | BFollowing n => seq_ (fun _ => bound n kFollowing false) [pnum n; kw TOK_FOLLOWING]
  | BCurrent => seq_ (fun _ => current_row) [kw TOK_CURRENT_ROW]
  end.
(** Without a frame: RANGE BETWEEN UNBOUNDED PRECEDING AND CURRENT ROW. *)
Definition p_frame (f : option (ftype * fclause)) : part :=
  match f with
  | None => nothing (frame kRange (bound 0 kPreceding true) current_row)
  | Some (t, FSingle b) => seq_ (fun v => frame (arg 1 v) (arg 2 v) current_row) [p_ftype t; p_bound b]
  | Some (t, FBetween a b) => seq_ (fun v => frame (arg 1 v) (arg 3 v) (arg 5 v)) [p_ftype t; kw TOK_BETWEEN; p_bound a; kw TOK_AND; p_bound b]
  end.
Definition p_window (w : window) : part :=
  seq_ (fun v => obj CWindowDescription [(F_partitionList, arg 3 v); (F_orderList, arg 4 v); (F_frameDescription, arg 5 v)])
    [kw TOK_OVER; kw 40; match w_part w with [] => nothing VNull | l => seq_ (arg 3) [kw TOK_PARTITION; kw TOK_BY; plist (map p_item l)] end; p_order (w_order w); p_frame (w_frame w); kw 41].

(** ** FROM *)
Inductive jtype := JPlain | JInner | JLeftOuter | JLeft | JRightOuter | JRight | JFullOuter | JOuter | JFull | JCross.
Definition p_jtype (t : jtype) : part :=
  match t with
  | JPlain => nothing kJoinInner
  | JInner => seq_ (fun _ => kJoinInner) [kw TOK_INNER]
  | JLeftOuter => seq_ (fun _ => kJoinLeft) [kw TOK_LEFT; kw TOK_OUTER]
  | JLeft => seq_ (fun _ => kJoinLeft) [kw TOK_LEFT]
  | JRightOuter => seq_ (fun _ => kJoinRight) [kw TOK_RIGHT; kw TOK_OUTER]
  | JRight => seq_ (fun _ => kJoinRight) [kw TOK_RIGHT]
  | JFullOuter => seq_ (fun _ => kJoinFull) [kw TOK_FULL; kw TOK_OUTER]
  | JOuter => seq_ (fun _ => kJoinFull) [kw TOK_OUTER]
  | JFull => seq_ (fun _ => kJoinFull) [kw TOK_FULL]
  | JCross => seq_ (fun _ => kJoinCross) [kw TOK_CROSS]
  end.
Inductive tref :=
| RTable (t : tname) (a : option talias)
| RSelect (p : part) (a : option talias) (* a select statement in parentheses *)
| RNatural (l r : tref)
| ROn (l : tref) (t : jtype) (r : tref) (e : ex)
| RUsing (l : tref) (t : jtype) (r : tref) (cols : list bytes).
Fixpoint p_tref (r : tref) : part :=
  match r with
  | RTable t a => seq_ (fun v => obj CTableRef [(F_type, kTableName); (F_schema, schema_of t); (F_name, name_of t); (F_alias, arg 2 v)]) [p_tname t; p_talias a]
  | RSelect p a => seq_ (fun v => obj CTableRef [(F_type, kTableSelect); (F_select, arg 2 v); (F_alias, arg 4 v)]) [kw 40; p; kw 41; p_talias a]
  | RNatural l r => seq_ (fun v => join kJoinNatural (arg 1 v) (arg 4 v) VNull VNull) [p_tref l; kw TOK_NATURAL; kw TOK_JOIN; p_tref r]
  | ROn l t r e => seq_ (fun v => join (arg 2 v) (arg 1 v) (arg 4 v) (arg 6 v) VNull) [p_tref l; p_jtype t; kw TOK_JOIN; p_tref r; kw TOK_ON; pex e]
  | RUsing l t r cols => seq_ (fun v => join (arg 2 v) (arg 1 v) (arg 4 v) VNull (arg 7 v)) [p_tref l; p_jtype t; kw TOK_JOIN; p_tref r; kw TOK_USING; kw 40; ident_list cols; kw 41]
  end.
(** The right operand of NATURAL JOIN is not a join. *)
Fixpoint tref_ok (r : tref) : bool :=
  match r with
  | RTable _ (Some (TColumns _ cols)) | RSelect _ (Some (TColumns _ cols)) => match cols with [] => false | _ => true end
  | RTable _ _ | RSelect _ _ => true
  | RNatural l r => tref_ok l && tref_ok r && match r with RTable _ _ | RSelect _ _ => true | _ => false end
  | ROn l _ r e => tref_ok l && tref_ok r && fits e
  | RUsing l _ r cols => tref_ok l && tref_ok r && match cols with [] => false | _ => true end
  end.
Fixpoint tref_parts (r : tref) : list (kind * part) :=
  match r with
  | RTable _ _ => [] | RSelect p _ => [(KTable, p)] | RNatural l r | RUsing l _ r _ => tref_parts l ++ tref_parts r
  | ROn l _ r e => tref_parts l ++ tref_parts r ++ xparts e
  end.
(** One table, or the cross product of several. *)
Definition p_from (l : list tref) : part :=
  match l with
  | [] => nothing VNull
  | [r] => seq_ (arg 2) [kw TOK_FROM; p_tref r]
  | _ => seq_ (arg 2) [kw TOK_FROM; mkPart (commas (map (fun r => q_tok (p_tref r)) l))
                                          (fun k => obj CTableRef [(F_type, kTableCrossProduct); (F_list, vec (values (map p_tref l) k))])
                                          (all_ok (map p_tref l)) (total (map p_tref l)) (list_stack (map (fun r => q_stack (p_tref r)) l))]
  end.

(** ** SELECT *)
Definition p_where (e : option ex) : part := match e with None => nothing VNull | Some e => seq_ (arg 2) [kw TOK_WHERE; pex e] end.
Record clause := mkClause {
  c_top : option Z; c_distinct : bool; c_items : list item; c_from : list tref; c_where : option ex; c_group : list item; c_having : option ex }.
Definition p_top (t : option Z) : part := match t with None => nothing VNull | Some z => seq_ (fun v => limit (int_lit z) VNull) [kw TOK_TOP; pnum z] end.
Definition p_distinct (d : bool) : part := if d then seq_ (fun _ => VBool true) [kw TOK_DISTINCT] else nothing (VBool false).
Definition p_having (e : option ex) : part := match e with None => nothing VNull | Some e => seq_ (arg 2) [kw TOK_HAVING; pex e] end.
Definition p_group (l : list item) (h : option ex) : part :=
  match l with
  | [] => nothing VNull
  | _ => seq_ (fun v => obj CGroupByDescription [(F_columns, arg 3 v); (F_having, arg 4 v)]) [kw TOK_GROUP; kw TOK_BY; plist (map p_item l); p_having h]
  end.
Definition p_clause (c : clause) : part :=
  seq_ (fun v => obj CSelectStatement [(F_limit, arg 2 v); (F_selectDistinct, arg 3 v); (F_selectList, arg 4 v); (F_fromTable, arg 5 v); (F_whereClause, arg 6 v); (F_groupBy, arg 7 v)])
    [kw TOK_SELECT; p_top (c_top c); p_distinct (c_distinct c); plist (map p_item (c_items c)); p_from (c_from c); p_where (c_where c); p_group (c_group c) (c_having c)].
(** Set operations. *)
Inductive setop := Union | Intersect | Except.
Definition p_setop (o : setop) (all : bool) : part :=
  seq_ (fun v => obj CSetOperation [(F_setType, match o with Union => kSetUnion | Intersect => kSetIntersect | Except => kSetExcept end); (F_isAll, VBool all)])
    [kw match o with Union => TOK_UNION | Intersect => TOK_INTERSECT | Except => TOK_EXCEPT end; if all then seq_ (fun _ => VBool true) [kw TOK_ALL] else nothing (VBool false)].
(** [query]: a select without parentheses around it; [pquery]: with; [operand]: the right side of a set operation. *)
Inductive query := QSelect (c : clause) (o : list ord) (l : lim) (k : list lock) | QSet (c : clause) (s : setop) (all : bool) (r : operand_) (o : list ord) (l : lim) (k : list lock)
with pquery := PQuery (q : query) | PParen (p : pquery)
with operand_ := OParen (p : pquery) | OSelect (c : clause) | OSet (c : clause) (s : setop) (all : bool) (r : operand_).
(** ORDER BY, LIMIT and locking clauses at the end belong to the whole query; LIMIT overrides TOP. *)
Fixpoint p_query (q : query) : part :=
  match q with
  | QSelect c o l k =>
    seq_ (fun v => with_ [(F_order, arg 2 v); (F_limit, match l with LNone => fget F_limit (arg 1 v) | _ => arg 3 v end); (F_lockings, arg 4 v)] (arg 1 v)) [p_clause c; p_order o; p_limit l; p_locks k]
  | QSet c s all r o l k =>
    seq_ (fun v => with_ [(F_lockings, arg 6 v)] (set_op (arg 1 v) (arg 2 v) (arg 3 v) (arg 4 v) (arg 5 v))) [p_clause c; p_setop s all; p_operand r; p_order o; p_limit l; p_locks k]
  end
with p_pquery (p : pquery) : part := match p with PQuery q => paren (p_query q) | PParen p => paren (p_pquery p) end
with p_operand (r : operand_) : part :=
  match r with
  | OParen p => p_pquery p
  | OSelect c => p_clause c
  | OSet c s all r => seq_ (fun v => set_op (arg 1 v) (arg 2 v) (arg 3 v) VNull VNull) [p_clause c; p_setop s all; p_operand r]
  end.
(** Select statements, with common table expressions. *)
Inductive select := SQuery (q : query) | SParen (p : pquery) | SSet (p : pquery) (s : setop) (all : bool) (r : operand_) (o : list ord) (l : lim).
Definition withs := list (bytes * pquery).
Definition p_withs (w : withs) : part :=
  match w with
  | [] => nothing VNull
  | _ => seq_ (arg 2) [kw TOK_WITH; plist (map (fun d => seq_ (fun v => obj CWithDescription [(F_alias, arg 1 v); (F_select, arg 3 v)]) [pid (fst d); kw TOK_AS; p_pquery (snd d)]) w)]
  end.
Definition p_select (w : withs) (s : select) : part :=
  match s with
  | SQuery q => seq_ (fun v => with_ [(F_withDescriptions, arg 1 v)] (arg 2 v)) [p_withs w; p_query q]
  | SParen p => seq_ (fun v => with_ [(F_withDescriptions, arg 1 v)] (arg 2 v)) [p_withs w; p_pquery p]
  | SSet p o all r ord l => seq_ (fun v => with_ [(F_withDescriptions, arg 1 v)] (set_op (arg 2 v) (arg 3 v) (arg 4 v) (arg 5 v) (arg 6 v))) [p_withs w; p_pquery p; p_setop o all; p_operand r; p_order ord; p_limit l]
  end.

(** ** Literals of VALUES, EXECUTE and hints *)
Inductive lit := VLInt (z : Z) | VLFloat (f : bytes) | VLString (s : bytes) | VLBool (b : bool) | VLNull | VLDate (s : bytes) | VLInterval (z : Z) (u : unit_) (plural : bool) | VLIntervalText (s : bytes) (u : option unit_) | VLParam.
Definition lit_ex (l : lit) : ex :=
  match l with VLInt z => XInt z | VLFloat f => XFlt f | VLString s => XStr s | VLBool b => XBool b | VLNull => XNull | VLDate s => XDate s | VLInterval z u p => XInterval z u p | VLIntervalText s u => XIntervalText s u | VLParam => XParam end.
(** A parameter is not allowed. *)
Definition p_lit (l : lit) : part := let e := lit_ex l in mkPart (xtok e) (xobj e) (fun _ => match l with VLDate s => scan_date s | VLIntervalText s u => fits (XIntervalText s u) | VLParam => false | _ => true end) (xparams e) (xstack e).
Inductive xlit := XLit (l : lit) | XNegInt (z : Z) | XNegFloat (f : bytes) | XNegInterval (z : Z) (u : unit_) (plural : bool) | XNegIntervalText (s : bytes) (u : option unit_).
Definition p_xlit (l : xlit) : part :=
  match l with
  | XLit l => p_lit l
  | XNegInt z => seq_ (fun v => unop kOpUnaryMinus (arg 2 v)) [kw 45; pex (XInt z)]
  | XNegFloat f => seq_ (fun v => unop kOpUnaryMinus (arg 2 v)) [kw 45; pex (XFlt f)]
  | XNegInterval z u p => seq_ (fun v => unop kOpUnaryMinus (arg 2 v)) [kw 45; pex (XInterval z u p)]
  | XNegIntervalText s u => seq_ (fun v => unop kOpUnaryMinus (arg 2 v)) [kw 45; p_lit (VLIntervalText s u)]
  end.
Definition ptype (t : ctype) : part := mkPart (ctype_tok t) (fun _ => ctype_obj t) (fun _ => true) 0 6.
Inductive clit := CPlain (l : xlit) | CCast (l : xlit) (t : ctype).
Definition p_clit (l : clit) : part := match l with CPlain l => p_xlit l | CCast l t => seq_ (fun v => cast (arg 3 v) (arg 5 v)) [kw TOK_CAST; kw 40; p_xlit l; kw TOK_AS; ptype t; kw 41] end.

(** ** Column and table definitions *)
Definition p_columns (l : list bytes) : part := match l with [] => nothing VNull | _ => paren (ident_list l) end.
Record refspec := mkRef { r_table : tname; r_cols : list bytes }.
Definition p_ref (r : refspec) : part :=
  seq_ (fun v => obj CReferencesSpecification [(F_schema, schema_of (r_table r)); (F_table, name_of (r_table r)); (F_columns, arg 3 v)]) [kw TOK_REFERENCES; p_tname (r_table r); p_columns (r_cols r)].
Inductive ccon := CcPrimary | CcUnique | CcNull | CcNotNull | CcRef (r : refspec).
Definition cc_kind (c : ccon) : val := match c with CcPrimary => PrimaryKey | CcUnique => Unique | CcNull => CNull | CcNotNull => NotNull | CcRef _ => ForeignKey end.
Definition p_ccon (c : ccon) : part :=
  match c with
  | CcPrimary => seq_ (fun _ => PrimaryKey) [kw TOK_PRIMARY; kw TOK_KEY]
  | CcUnique => seq_ (fun _ => Unique) [kw TOK_UNIQUE]
  | CcNull => seq_ (fun _ => CNull) [kw TOK_NULL]
  | CcNotNull => seq_ (fun _ => NotNull) [kw TOK_NOT; kw TOK_NULL]
  | CcRef r => p_ref r
  end.
(** The different kinds of constraints in order of first occurrence. *)
Definition kinds (l : list ccon) : list val := fold_left (fun acc c => if existsb (is_enum (cc_kind c)) acc then acc else acc ++ [cc_kind c]) l [].
Definition refs (l : list ccon) : list val := flat_map (fun c => match c with CcRef r => [q_obj (p_ref r) 0] | _ => [] end) l.
Definition p_ccons (l : list ccon) : part := mkPart (flat_map (fun c => q_tok (p_ccon c)) l) (fun _ => constraints (vec (kinds l)) (vec (refs l))) (fun _ => true) 0 (row_stack (map (fun c => q_stack (p_ccon c)) l)).
(** NOT NULL and PRIMARY KEY make a column non-nullable and contradict NULL. *)
Definition not_nullable (l : list ccon) : bool := existsb (fun c => match c with CcPrimary | CcNotNull => true | _ => false end) l.
Definition explicit_null (l : list ccon) : bool := existsb (fun c => match c with CcNull => true | _ => false end) l.
Record cdef := mkCol { d_name : bytes; d_type : ctype; d_cons : list ccon }.
Definition p_cdef (d : cdef) : part :=
  seqp (fun v => obj CColumnDefinition [(F_column_constraints, vec (kinds (d_cons d))); (F_name, arg 1 v); (F_type, arg 2 v); (F_nullable, VBool (negb (not_nullable (d_cons d)))); (F_references, vec (refs (d_cons d)))])
       (fun _ => negb (not_nullable (d_cons d) && explicit_null (d_cons d))) [pid (d_name d); ptype (d_type d); p_ccons (d_cons d)].
Inductive tcon := TcPrimary (cols : list bytes) | TcUnique (cols : list bytes) | TcForeign (cols : list bytes) (r : refspec).
Definition p_tcon (c : tcon) : part :=
  match c with
  | TcPrimary cols => seq_ (fun v => obj CTableConstraint [(F_type, PrimaryKey); (F_columnNames, arg 4 v)]) [kw TOK_PRIMARY; kw TOK_KEY; kw 40; ident_list cols; kw 41]
  | TcUnique cols => seq_ (fun v => obj CTableConstraint [(F_type, Unique); (F_columnNames, arg 3 v)]) [kw TOK_UNIQUE; kw 40; ident_list cols; kw 41]
  | TcForeign cols r => seq_ (fun v => obj CForeignKeyConstraint [(F_columnNames, arg 4 v); (F_references, arg 6 v)]) [kw TOK_FOREIGN; kw TOK_KEY; kw 40; ident_list cols; kw 41; p_ref r]
  end.
Inductive telem := EColumn (d : cdef) | EConstraint (c : tcon).
Definition p_telem (e : telem) : part := match e with EColumn d => p_cdef d | EConstraint c => p_tcon c end.

(** ** Options of COPY *)
Inductive copt := OFormat (w : bytes) | OEncoding (s : bytes) | OCsv (w s : bytes) | OCsvNull (s : bytes).
Definition p_copt (o : copt) : part :=
  match o with
  | OFormat w => seq_ (fun _ => VUninit) [kw TOK_FORMAT; pid w] | OEncoding s => seq_ (fun _ => VUninit) [kw TOK_ENCODING; pstring s]
  | OCsv w s => seq_ (fun _ => VUninit) [pid w; pstring s] | OCsvNull s => seq_ (fun _ => VUninit) [kw TOK_NULL; pstring s]
  end.
Definition delimiters (l : list copt) : list bytes := flat_map (fun o => match o with OCsv w s => if casecmp w (la "DELIMITER") then [s] else [] | _ => [] end) l.
Definition quotes (l : list copt) : list bytes := flat_map (fun o => match o with OCsv w s => if casecmp w (la "DELIMITER") then [] else if casecmp w (la "QUOTE") then [s] else [] | _ => [] end) l.
Definition nulls_ (l : list copt) : list bytes := flat_map (fun o => match o with OCsvNull s => [s] | _ => [] end) l.
Definition encodings (l : list copt) : list bytes := flat_map (fun o => match o with OEncoding s => [s] | _ => [] end) l.
Definition formats (l : list copt) : list val := flat_map (fun o => match o with OFormat w => match file_type w with Some f => [f] | None => [] end | _ => [] end) l.
Definition known_option (o : copt) : bool :=
  match o with OFormat w => match file_type w with Some _ => true | None => false end | OCsv w _ => casecmp w (la "DELIMITER") || casecmp w (la "QUOTE") | _ => true end.
Definition once {A} (l : list A) : bool := List.length l <=? 1.
(** Accepted: known words, everything at most once, CSV options only with format CSV or no format. *)
Definition copts_ok (l : list copt) : bool :=
  forallb known_option l && once (formats l) && once (encodings l) && once (delimiters l) && once (quotes l) && once (nulls_ l)
  && match delimiters l ++ quotes l ++ nulls_ l with [] => true | _ => forallb (is_enum kImportCSV) (formats l) end.
Definition first_str (l : list bytes) : val := match l with s :: _ => str s | [] => VNull end.
Definition csv_obj (l : list copt) : val :=
  match delimiters l ++ quotes l ++ nulls_ l with
  | [] => VNull
  | _ => obj CCsvOptions [(F_delimiter, first_str (delimiters l)); (F_null, first_str (nulls_ l)); (F_quote, first_str (quotes l))]
  end.
Definition copts_obj (l : list copt) : val := options (hd kImportAuto (formats l)) (first_str (encodings l)) (csv_obj l).
Definition p_copts (l : list copt) : part := mkPart (commas (map (fun o => q_tok (p_copt o)) l)) (fun _ => copts_obj l) (fun _ => copts_ok l) 0 4.
(** In parentheses, with or without WITH. *)
Definition p_options (with_kw : bool) (l : list copt) : part :=
  match l with
  | [] => nothing (options kImportAuto VNull VNull)
  | _ => if with_kw then seq_ (arg 3) [kw TOK_WITH; kw 40; p_copts l; kw 41] else seq_ (arg 2) [kw 40; p_copts l; kw 41]
  end.

(** ** Statements *)
Inductive tx := TBegin | TRollback | TCommit.
Record hint := mkHint { h_name : bytes; h_args : list clit }.
Inductive droppable := DTable (t : tname) | DView (t : tname) | DIndex (n : bytes).
Inductive stmt :=
| SSelect (w : withs) (s : select)
| SInsert (t : tname) (cols : list bytes) (vals : list clit)
| SInsertQuery (t : tname) (cols : list bytes) (q : query)
| SUpdate (t : tname) (l : list (bytes * ex)) (w : option ex)
| SDelete (t : tname) (w : option ex)
| STruncate (t : tname)
| SCreateTable (ine : bool) (t : tname) (l : list telem)
| SCreateTableAs (ine : bool) (t : tname) (w : withs) (s : select)
| SCreateTableFile (ine : bool) (t : tname) (ty file : bytes)
| SCreateView (ine : bool) (t : tname) (cols : list bytes) (w : withs) (s : select)
| SCreateIndex (ine : bool) (n : option bytes) (t : tname) (cols : list bytes)
| SDrop (ie : bool) (d : droppable)
| SDeallocate (n : bytes)
| SAlterDropColumn (ie : bool) (t : tname) (iec : bool) (col : bytes)
| SExecute (n : bytes) (args : option (list clit))
| STransaction (t : tx) (kwd : bool)
| SPrepare (n sql : bytes)
| SShowTables | SShowColumns (t : tname) | SDescribe (t : tname)
| SImport (ty file : bytes) (t : tname)
| SCopyFrom (t : tname) (file : bytes) (wk : bool) (o : list copt) (w : option ex)
| SCopyTo (t : tname) (file : bytes) (wk : bool) (o : list copt)
| SCopyQueryTo (q : pquery) (file : bytes) (wk : bool) (o : list copt).
Definition p_ine (b : bool) : part := if b then seq_ (fun _ => VBool true) [kw TOK_IF; kw TOK_NOT; kw TOK_EXISTS] else nothing (VBool false).
Definition p_ie (b : bool) : part := if b then seq_ (fun _ => VBool true) [kw TOK_IF; kw TOK_EXISTS] else nothing (VBool false).
Definition is_column (e : telem) : bool := match e with EColumn _ => true | _ => false end.
Definition p_update (u : bytes * ex) : part := seq_ (fun v => obj CUpdateClause [(F_column, arg 1 v); (F_value, arg 3 v)]) [pid (fst u); kw 61; pex (snd u)].
Definition ftype_part (w : bytes) : part := mkPart [Id w] (fun _ => match file_type w with Some f => f | None => VUninit end) (fun _ => match file_type w with Some _ => true | None => false end) 0 1.
Definition p_stmt (s : stmt) : part :=
  match s with
  | SSelect w s => p_select w s
  | SInsert t cols vals =>
    seq_ (fun v => obj CInsertStatement [(F_type, kInsertValues); (F_schema, schema_of t); (F_tableName, name_of t); (F_columns, arg 4 v); (F_values, arg 7 v)])
      [kw TOK_INSERT; kw TOK_INTO; p_tname t; p_columns cols; kw TOK_VALUES; kw 40; plist (map p_clit vals); kw 41]
  | SInsertQuery t cols q =>
    seq_ (fun v => obj CInsertStatement [(F_type, kInsertSelect); (F_schema, schema_of t); (F_tableName, name_of t); (F_columns, arg 4 v); (F_select, arg 5 v)])
      [kw TOK_INSERT; kw TOK_INTO; p_tname t; p_columns cols; p_query q]
  | SUpdate t l w =>
    seq_ (fun v => obj CUpdateStatement [(F_table, obj CTableRef [(F_type, kTableName); (F_schema, schema_of t); (F_name, name_of t)]); (F_updates, arg 4 v); (F_where, arg 5 v)])
      [kw TOK_UPDATE; p_tname t; kw TOK_SET; plist (map p_update l); p_where w]
  | SDelete t w => seq_ (fun v => obj CDeleteStatement [(F_schema, schema_of t); (F_tableName, name_of t); (F_expr, arg 4 v)]) [kw TOK_DELETE; kw TOK_FROM; p_tname t; p_where w]
  | STruncate t => seq_ (fun v => obj CDeleteStatement [(F_schema, schema_of t); (F_tableName, name_of t)]) [kw TOK_TRUNCATE; p_tname t]
  | SCreateTable ine t l =>
    mkPart ([K TOK_CREATE; K TOK_TABLE] ++ q_tok (p_ine ine) ++ q_tok (p_tname t) ++ [lpar] ++ commas (map (fun e => q_tok (p_telem e)) l) ++ [rpar])
      (fun k => obj CCreateStatement [(F_type, kCreateTable); (F_ifNotExists, VBool ine); (F_schema, schema_of t); (F_tableName, name_of t);
                  (F_columns, vec (map (fun e => q_obj (p_telem e) k) (filter is_column l))); (F_tableConstraints, vec (map (fun e => q_obj (p_telem e) k) (filter (fun e => negb (is_column e)) l)))])
      (fun k => forallb (fun e => q_ok (p_telem e) k) l) 0 (stack [1; 1; q_stack (p_ine ine); q_stack (p_tname t); 1; list_stack (map (fun e => q_stack (p_telem e)) l); 1])
  | SCreateTableAs ine t w s =>
    seq_ (fun v => obj CCreateStatement [(F_type, kCreateTable); (F_ifNotExists, VBool ine); (F_schema, schema_of t); (F_tableName, name_of t); (F_select, arg 6 v)])
      [kw TOK_CREATE; kw TOK_TABLE; p_ine ine; p_tname t; kw TOK_AS; p_select w s]
  | SCreateTableFile ine t ty file =>
    seqp (fun v => obj CCreateStatement [(F_type, kCreateTableFromTbl); (F_ifNotExists, VBool ine); (F_schema, schema_of t); (F_tableName, name_of t); (F_filePath, str file)])
         (fun _ => casecmp ty (la "tbl")) [kw TOK_CREATE; kw TOK_TABLE; p_ine ine; p_tname t; kw TOK_FROM; pid ty; kw TOK_FILE; pstring file]
  | SCreateView ine t cols w s =>
    seq_ (fun v => obj CCreateStatement [(F_type, kCreateView); (F_ifNotExists, VBool ine); (F_schema, schema_of t); (F_tableName, name_of t); (F_viewColumns, arg 5 v); (F_select, arg 7 v)])
      [kw TOK_CREATE; kw TOK_VIEW; p_ine ine; p_tname t; p_columns cols; kw TOK_AS; p_select w s]
  | SCreateIndex ine n t cols =>
    seq_ (fun v => obj CCreateStatement [(F_type, kCreateIndex); (F_ifNotExists, VBool ine); (F_tableName, name_of t); (F_indexName, match n with Some n => str n | None => VNull end); (F_indexColumns, arg 8 v)])
      [kw TOK_CREATE; kw TOK_INDEX; p_ine ine; match n with Some n => pid n | None => nothing VNull end; kw TOK_ON; p_tname t; kw 40; ident_list cols; kw 41]
  | SDrop ie (DTable t) => seq_ (fun v => drop_ kDropTable (VBool ie) (schema_of t) (name_of t) VNull) [kw TOK_DROP; kw TOK_TABLE; p_ie ie; p_tname t]
  | SDrop ie (DView t) => seq_ (fun v => drop_ kDropView (VBool ie) (schema_of t) (name_of t) VNull) [kw TOK_DROP; kw TOK_VIEW; p_ie ie; p_tname t]
  | SDrop ie (DIndex n) => seq_ (fun v => drop_ kDropIndex (VBool ie) VNull VNull (str n)) [kw TOK_DROP; kw TOK_INDEX; p_ie ie; pid n]
  | SDeallocate n => seq_ (fun v => drop_ kDropPreparedStatement (VBool false) VNull (str n) VNull) [kw TOK_DEALLOCATE; kw TOK_PREPARE; pid n]
  | SAlterDropColumn ie t iec col =>
    seq_ (fun v => obj CAlterStatement [(F_schema, schema_of t); (F_ifTableExists, VBool ie); (F_name, name_of t); (F_action, arg 5 v)])
      [kw TOK_ALTER; kw TOK_TABLE; p_ie ie; p_tname t; seq_ (fun v => obj CDropColumnAction [(F_columnName, str col); (F_ifExists, VBool iec)]) [kw TOK_DROP; kw TOK_COLUMN; p_ie iec; pid col]]
  | SExecute n None => seq_ (fun v => obj CExecuteStatement [(F_name, str n)]) [kw TOK_EXECUTE; pid n]
  | SExecute n (Some l) => seq_ (fun v => obj CExecuteStatement [(F_name, str n); (F_parameters, arg 4 v)]) [kw TOK_EXECUTE; pid n; kw 40; match l with [] => nothing VNull | _ => plist (map p_clit l) end; kw 41]
  | STransaction t k =>
    seq_ (fun v => obj CTransactionStatement [(F_command, match t with TBegin => kBeginTransaction | TRollback => kRollbackTransaction | TCommit => kCommitTransaction end)])
      [kw match t with TBegin => TOK_BEGIN | TRollback => TOK_ROLLBACK | TCommit => TOK_COMMIT end; if k then seq_ (fun _ => VUninit) [kw TOK_TRANSACTION] else nothing VUninit]
  | SPrepare n sql => seq_ (fun v => obj CPrepareStatement [(F_name, str n); (F_query, str sql)]) [kw TOK_PREPARE; pid n; kw TOK_FROM; pstring sql]
  | SShowTables => seq_ (fun v => obj CShowStatement [(F_type, kShowTables)]) [kw TOK_SHOW; kw TOK_TABLES]
  | SShowColumns t => seq_ (fun v => obj CShowStatement [(F_type, kShowColumns); (F_schema, schema_of t); (F_name, name_of t)]) [kw TOK_SHOW; kw TOK_COLUMNS; p_tname t]
  | SDescribe t => seq_ (fun v => obj CShowStatement [(F_type, kShowColumns); (F_schema, schema_of t); (F_name, name_of t)]) [kw TOK_DESCRIBE; p_tname t]
  | SImport ty file t =>
    seq_ (fun v => obj CImportStatement [(F_type, arg 3 v); (F_filePath, str file); (F_schema, schema_of t); (F_tableName, name_of t)]) [kw TOK_IMPORT; kw TOK_FROM; ftype_part ty; kw TOK_FILE; pstring file; kw TOK_INTO; p_tname t]
  | SCopyFrom t file wk o w =>
    seq_ (fun v => obj CImportStatement [(F_type, hd kImportAuto (formats o)); (F_filePath, str file); (F_schema, schema_of t); (F_tableName, name_of t); (F_whereClause, arg 6 v); (F_encoding, first_str (encodings o)); (F_csv_options, csv_obj o)])
      [kw TOK_COPY; p_tname t; kw TOK_FROM; pstring file; p_options wk o; p_where w]
  | SCopyTo t file wk o =>
    seq_ (fun v => obj CExportStatement [(F_type, hd kImportAuto (formats o)); (F_filePath, str file); (F_schema, schema_of t); (F_tableName, name_of t); (F_encoding, first_str (encodings o)); (F_csv_options, csv_obj o)])
      [kw TOK_COPY; p_tname t; kw TOK_TO; pstring file; p_options wk o]
  | SCopyQueryTo q file wk o =>
    seq_ (fun v => obj CExportStatement [(F_type, hd kImportAuto (formats o)); (F_filePath, str file); (F_select, arg 2 v); (F_encoding, first_str (encodings o)); (F_csv_options, csv_obj o)])
      [kw TOK_COPY; p_pquery q; kw TOK_TO; pstring file; p_options wk o]
  end.
(** Hints may follow every statement except SHOW, DESCRIBE, IMPORT and COPY. *)
Definition p_hint (h : hint) : part :=
  match h_args h with
  | [] => seq_ (fun v => expr kExprHint [(F_name, str (h_name h))]) [pid (h_name h)]
  | l => seq_ (fun v => expr kExprHint [(F_name, str (h_name h)); (F_exprList, arg 3 v)]) [pid (h_name h); kw 40; plist (map p_clit l); kw 41]
  end.
Definition p_hints (l : list hint) : part := match l with [] => nothing VNull | _ => seq_ (arg 4) [kw TOK_WITH; kw TOK_HINT; kw 40; plist (map p_hint l); kw 41] end.
Definition hintable (s : stmt) : bool := match s with SShowTables | SShowColumns _ | SDescribe _ | SImport _ _ _ | SCopyFrom _ _ _ _ _ | SCopyTo _ _ _ _ | SCopyQueryTo _ _ _ _ => false | _ => true end.
Definition p_hinted (s : stmt * list hint) : part :=
  if hintable (fst s) then seq_ (fun v => with_ [(F_hints, arg 2 v)] (arg 1 v)) [p_stmt (fst s); p_hints (snd s)] else p_stmt (fst s).
(** A list of statements separated by semicolons; [stringLength] is not specified here. *)
Fixpoint semis (l : list tokens_) : tokens_ := match l with [] => [] | [x] => x | x :: l' => x ++ [K 59] ++ semis l' end.
Definition p_script (l : list (stmt * list hint)) : part :=
  let ps := map p_hinted l in
  mkPart (semis (map q_tok ps)) (fun k => vec (map (with_ [(F_stringLength, VInt 0)]) (values ps k))) (all_ok ps) (total ps) (list_stack (map q_stack ps)).
