(** Specification: which statements are well-formed (expressions with the parentheses they need, lists which are not empty, ...), and the
    statements whose subqueries are well-formed.  Independent of the parser. *)
From Verif Require Import Base TokenCodes LexModel Ast Heap Actions ParseModel Grammar Sem Part Expr Stmt.
Local Open Scope nat_scope.

Definition some {A} (l : list A) : bool := match l with [] => false | _ => true end.
Definition of_opt {A B} (f : A -> list B) (o : option A) : list B := match o with Some x => f x | None => [] end.
Definition if_some {A} (f : A -> bool) (o : option A) : bool := match o with Some x => f x | None => true end.
Definition item_ok (i : item) : bool := fits (i_ex i).
Definition item_parts (i : item) := xparts (i_ex i).
Definition ord_ok (o : ord) : bool := fits (o_ex o).
Definition ord_parts (o : ord) := xparts (o_ex o).
Definition lim_exs (l : lim) : list ex := match l with LNone | LAll => [] | LLimit e | LOffset e | LAllOffset e => [e] | LBoth a b => [a; b] end.
Definition lim_ok (l : lim) : bool := forallb fits (lim_exs l).
Definition lim_parts (l : lim) := flat_map xparts (lim_exs l).
Definition window_ok (w : window) : bool := forallb item_ok (w_part w) && forallb ord_ok (w_order w).
Definition window_parts (w : window) := flat_map item_parts (w_part w) ++ flat_map ord_parts (w_order w).
Definition clause_ok (c : clause) : bool :=
  some (c_items c) && forallb item_ok (c_items c) && forallb tref_ok (c_from c) && if_some fits (c_where c) && forallb item_ok (c_group c) && if_some fits (c_having c).
Definition clause_parts (c : clause) :=
  flat_map item_parts (c_items c) ++ flat_map tref_parts (c_from c) ++ of_opt xparts (c_where c) ++ flat_map item_parts (c_group c) ++ of_opt xparts (c_having c).
Definition tail_parts (o : list ord) (l : lim) := flat_map ord_parts o ++ lim_parts l.
Definition tail_ok (o : list ord) (l : lim) : bool := forallb ord_ok o && lim_ok l.
Fixpoint query_ok (q : query) : bool :=
  match q with QSelect c o l _ => clause_ok c && tail_ok o l | QSet c _ _ r o l _ => clause_ok c && operand_ok r && tail_ok o l end
with pquery_ok (p : pquery) : bool := match p with PQuery q => query_ok q | PParen p => pquery_ok p end
with operand_ok (r : operand_) : bool := match r with OParen p => pquery_ok p | OSelect c => clause_ok c | OSet c _ _ r => clause_ok c && operand_ok r end.
Fixpoint query_parts (q : query) : list (kind * part) :=
  match q with QSelect c o l _ => clause_parts c ++ tail_parts o l | QSet c _ _ r o l _ => clause_parts c ++ operand_parts r ++ tail_parts o l end
with pquery_parts (p : pquery) : list (kind * part) := match p with PQuery q => query_parts q | PParen p => pquery_parts p end
with operand_parts (r : operand_) : list (kind * part) := match r with OParen p => pquery_parts p | OSelect c => clause_parts c | OSet c _ _ r => clause_parts c ++ operand_parts r end.
Definition select_ok (w : withs) (s : select) : bool :=
  forallb (fun d => pquery_ok (snd d)) w && match s with SQuery q => query_ok q | SParen p => pquery_ok p | SSet p _ _ r o l => pquery_ok p && operand_ok r && tail_ok o l end.
Definition select_parts (w : withs) (s : select) : list (kind * part) :=
  flat_map (fun d => pquery_parts (snd d)) w ++ match s with SQuery q => query_parts q | SParen p => pquery_parts p | SSet p _ _ r o l => pquery_parts p ++ operand_parts r ++ tail_parts o l end.
Definition tcon_ok (c : tcon) : bool := match c with TcPrimary l | TcUnique l | TcForeign l _ => some l end.
Definition telem_ok (e : telem) : bool := match e with EColumn _ => true | EConstraint c => tcon_ok c end.
Definition stmt_ok (s : stmt) : bool :=
  match s with
  | SSelect w s | SCreateTableAs _ _ w s | SCreateView _ _ _ w s => select_ok w s
  | SInsert _ _ vals => some vals
  | SInsertQuery _ _ q => query_ok q
  | SUpdate _ l w => some l && forallb (fun u => fits (snd u)) l && if_some fits w
  | SDelete _ w | SCopyFrom _ _ _ _ w => if_some fits w
  | SCreateTable _ _ l => some l && forallb telem_ok l
  | SCreateIndex _ _ _ cols => some cols
  | SCopyQueryTo q _ _ _ => pquery_ok q
  | _ => true
  end.
Definition stmt_parts (s : stmt) : list (kind * part) :=
  match s with
  | SSelect w s | SCreateTableAs _ _ w s | SCreateView _ _ _ w s => select_parts w s
  | SInsertQuery _ _ q => query_parts q
  | SUpdate _ l w => flat_map (fun u => xparts (snd u)) l ++ of_opt xparts w
  | SDelete _ w | SCopyFrom _ _ _ _ w => of_opt xparts w
  | SCopyQueryTo q _ _ _ => pquery_parts q
  | _ => []
  end.
(** Subqueries, windows and derived tables: well-formed themselves, and so are theirs. *)
Inductive legal : kind * part -> Prop :=
| lg_query : forall q, query_ok q = true -> (forall k, q_ok (p_query q) k = true) -> (forall c, In c (query_parts q) -> legal c) -> legal (KQuery, p_query q)
| lg_window : forall w, window_ok w = true -> (forall k, q_ok (p_window w) k = true) -> (forall c, In c (window_parts w) -> legal c) -> legal (KWindow, p_window w)
| lg_table : forall w s, select_ok w s = true -> (forall k, q_ok (p_select w s) k = true) -> (forall c, In c (select_parts w s) -> legal c) -> legal (KTable, p_select w s).
Definition stmt_legal (s : stmt) : Prop := stmt_ok s = true /\ Forall legal (stmt_parts s).
Definition script_legal (l : list (stmt * list hint)) : Prop := l <> [] /\ Forall (fun s => stmt_legal (fst s)) l.
