(** Property C44: printing a parsed statement shows the outline of the statement.

    Vocabulary.  Outline.v: [script_lines sub l k], the lines shown for the statements of the script [l] (operators over their operands, clauses under
    their headings, depth = indentation), [sub]: the outlines of its subqueries and windows; [coherent sub]: these are the outlines of the queries
    and windows themselves.  [printStatementInfo] (Print.v): what the function writes ([None]: undefined behaviour).  The rest as in PropStmt.v. *)
From Verif Require Import Base Ast Heap ParseModel Api Sem ParseProof ParamProof PropParse Script PropStmt Print PrintCong.
From Verif Require Import LexScan LexWords LexTok Part Expr Stmt Legal Outline OutlineProof OutlineProof4.
From Coq Require Import String Permutation. Import ListNotations.
Local Open Scope nat_scope.

(** Outlines of subqueries and windows exist. *)
Theorem C44_outlines : exists sub, coherent sub.
Proof. exists printed. apply printed_coherent. Qed.
Lemma settled_stmts l addrs : Permutation (params_of l) (iths 0 addrs) -> Forall settled l.
Proof.
  intro P. apply Forall_forall. intros v I. unfold settled. apply Forall_forall. intros t It. assert (IN : In t (iths 0 addrs)) by (eapply Permutation_in; [exact P|]; apply in_flat_map; eauto).
  clear -IN. revert IN. generalize 0. induction addrs as [|a addrs IH]; intros n []; [|eauto]. subst t. cbn. eauto.
Qed.
Theorem C44_printed_outline : forall sub, coherent sub -> forall (l : list (stmt * list hint)) (b : bool) text,
  script_legal l -> q_stack (p_script l) <= 198 -> q_ok (p_script l) 0 = true -> spells (q_tok (p_script l) ++ semicolon b) text -> forall buf0,
  exists e, parse buf0 text fresh_env = PRet 0 e /\ e_valid e = true /\ map printStatementInfo (e_stmts e) = map Some (script_lines sub l 0).
Proof.
  intros sub CO l b text LG ST OK SP buf0. destruct (script_accepted LG ST SP OK buf0) as (e & PE & V & EO & _). exists e. split; [exact PE|]. split; [exact V|].
  destruct (tokens_total text) as (ts & T & _). destruct (C18_parameters _ _ _ _ _ T PE V) as (addrs & _ & _ & PP & _). apply settled_stmts in PP.
  assert (E : map printStatementInfo (e_stmts e) = map printStatementInfo (map erase (e_stmts e))). { clear -PP. induction PP as [|v l S _ IH]; [reflexivity|]. cbn [map]. rewrite erase_print by exact S. now rewrite IH. }
  rewrite E, EO. unfold script_objs, p_script. cbn [q_obj elems vec]. apply script_prints; [|exact OK].
  destruct LG as [_ LG]. eapply Forall_impl; [|exact LG]. intros s [A B]. split; [exact A|]. intros c Ic. apply legal_prints; [exact CO|]. now apply (proj1 (Forall_forall legal _) B).
Qed.
(** They are determined. *)
Theorem C44_unique : forall sub sub' l, coherent sub -> coherent sub' -> script_legal l -> q_ok (p_script l) 0 = true -> script_lines sub l 0 = script_lines sub' l 0.
Proof.
  assert (P : forall sub l, coherent sub -> script_legal l -> q_ok (p_script l) 0 = true -> map printStatementInfo (script_objs l) = map Some (script_lines sub l 0)).
  { intros sub l CO [_ LG] OK. unfold script_objs, p_script. cbn [q_obj elems vec]. apply script_prints; [|exact OK]. eapply Forall_impl; [|exact LG]. intros s [A B]. split; [exact A|]. intros c Ic. apply legal_prints; [exact CO|]. now apply (proj1 (Forall_forall legal _) B). }
  intros sub sub' l C C' LG OK. pose proof (P sub l C LG OK) as A. rewrite (P sub' l C' LG OK) in A. clear -A. revert A. generalize (script_lines sub l 0) (script_lines sub' l 0). intro x. induction x as [|a x IH]; intros [|b y] E; cbn [map] in E; try discriminate E; [reflexivity|]. injection E as -> E. f_equal. now apply IH.
Qed.
(** The script of C07_example (join, window function, set operation, INSERT, CREATE, COPY): its outlines. *)
Example C44_example : script_legal script_ /\ q_stack (p_script script_) <= 198 /\ q_ok (p_script script_) 0 = true /\ forall sub, coherent sub -> script_lines sub script_ 0 =
  [[word 0 "SelectStatement"; word 1 "Fields:"; word 2 "+"; word 3 "a"; word 3 "*"; int_line 4 2; word 4 "b"; word 5 "Table:"; word 6 "t"; word 3 "Alias"; word 4 "s"; word 2 "RANK"; word 3 "OVER"; word 4 "PARTITION BY"; word 5 "g"; word 4 "ORDER BY"; word 5 "h"; word 5 "descending"; Out 4 [PTxt (la "ROWS"); PTxt (la " BETWEEN "); PInt 3; PTxt (la " "); PTxt (la "PRECEDING"); PTxt (la " AND "); PTxt (la "CURRENT ROW")]; word 1 "Sources:"; word 2 "Join Table"; word 3 "Left"; word 4 "t"; word 5 "Schema"; word 6 "sch"; word 5 "Alias"; word 6 "u"; word 3 "Right"; word 4 "w"; word 3 "Join Condition"; word 4 "AND"; word 5 "="; word 6 "i"; word 6 "j"; word 5 "NOT"; word 6 "IN"; word 7 "k"; word 1 "Search Conditions:"; word 2 "NOT"; word 3 "LIKE"; word 4 "n"; word 4 "x%"; word 1 "GroupBy:"; word 2 "a"; word 1 "Having:"; word 2 ">"; word 3 "SUM"; word 4 "b"; int_line 3 1; word 1 "Union:"; word 2 "SelectStatement"; word 3 "Fields:"; word 4 "CAST"; word 5 "DECIMAL"; word 5 "q"; word 4 "NULL"; word 3 "Sources:"; word 4 "z"; word 1 "SetResultOrderBy:"; word 2 "a"; word 2 "ascending"; word 1 "SetResultLimit:"; int_line 2 10; word 1 "SetResultOffset:"; int_line 2 2; word 1 "Limit:"; int_line 2 5]; [word 0 "InsertStatement"; word 1 "t"; word 1 "Columns"; word 2 "a"; word 2 "b"; word 1 "Values"; word 2 "-"; int_line 3 5; word 2 "CAST"; word 3 "DATE"; word 3 "2020-01-31"; word 2 "INTERVAL"; int_line 3 3; word 3 "DAY"]; [word 0 "CreateStatement"; word 1 "c"]; [word 0 "ImportStatement"; word 1 "f.csv"; word 1 "CSV"; word 1 "t"; word 1 "WHERE:"; word 2 "<="; word 3 "a"; Out 3 [PDbl (la "1.5")]]].
Proof.
  split; [exact script_legal_|]. split; [vm_compute; lia|]. split; [vm_compute; reflexivity|]. intros sub CO.
  rewrite (C44_unique sub printed script_ CO printed_coherent script_legal_) by (vm_compute; reflexivity). vm_compute. reflexivity.
Qed.
