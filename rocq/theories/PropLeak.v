(** C55: the exact number of blocks a successful parse loses.  No code of /repo. *)
From Verif Require Import Script PropParse PropResult History PropHistory.
From Coq Require Import ZifyBool ZifyNat ZifyN.
Local Open Scope nat_scope.

(** ** The account *)
(** How many tokens have the symbol [X]. *)
Definition tok_count (X : N) (ts : list token) : nat := List.length (filter (fun t => N.eqb (sym_of t) X) ts).
(** Element accesses a[3]: the brackets that do not belong to an ARRAY[...]. *)
Definition element_accesses (ts : list token) : nat := tok_count S_lbrack ts - tok_count S_ARRAY ts.
(** CREATE INDEX statements whose table has a schema: the nodes of rule 58 (bison_parser.y:674) whose table_name is not a single word (rule 309, line 1353). *)
Definition on_schema_table (t : tree) : bool :=
  match t with Node 58 (_ :: _ :: _ :: _ :: _ :: Node 310 _ :: _) => true | _ => false end.
Fixpoint schema_indexes (t : tree) : nat :=
  (if on_schema_table t then 1 else 0) + match t with Leaf _ => 0 | Node _ ts => list_sum (map schema_indexes ts) end.

(** ** Proof *)
Lemma tok_count_app X a b : tok_count X (a ++ b) = tok_count X a + tok_count X b.
Proof. unfold tok_count. now rewrite filter_app, app_length. Qed.
Fixpoint accesses (t : tree) : nat := match t with Leaf _ => 0 | Node r ts => (if N.eqb r 274 then 1 else 0) + list_sum (map accesses ts) end.
Definition sym_count (X : N) (Xs : list N) : nat := List.length (filter (fun Y => N.eqb Y X) Xs).
Lemma brackets X t : derives X t -> tok_count S_lbrack (yield t) + sym_count S_ARRAY [X] = tok_count S_ARRAY (yield t) + accesses t + sym_count S_lbrack [X].
Proof.
  assert (K : forallb (fun p => Nat.eqb (sym_count S_lbrack (snd (snd p))) (sym_count S_ARRAY (snd (snd p)) + if N.eqb (fst p) 274 then 1 else 0)) grammar = true) by (vm_compute; reflexivity).
  rewrite forallb_forall in K.
  intro D. revert X t D. apply (derives_mind
    (fun X t _ => tok_count S_lbrack (yield t) + sym_count S_ARRAY [X] = tok_count S_ARRAY (yield t) + accesses t + sym_count S_lbrack [X])
    (fun Xs ts _ => tok_count S_lbrack (flat_map yield ts) + sym_count S_ARRAY Xs = tok_count S_ARRAY (flat_map yield ts) + list_sum (map accesses ts) + sym_count S_lbrack Xs)).
  - intro t. cbn [yield accesses]. unfold tok_count, sym_count. cbn [filter]. destruct (N.eqb (sym_of t) S_lbrack), (N.eqb (sym_of t) S_ARRAY); reflexivity.
  - intros r lhs rhs ts P DL IH. pose proof (sym_small P) as SM. specialize (K _ (production_In P)). cbn [fst snd] in K. apply Nat.eqb_eq in K.
    cbn [yield accesses]. assert (Z : forall Y, (Y < 199)%N -> sym_count Y [lhs] = 0).
    { intros Y L. unfold sym_count. cbn [filter]. destruct (N.eqb_spec lhs Y); [lia|reflexivity]. }
    rewrite !Z by reflexivity. lia.
  - reflexivity.
  - intros Y Ys u us D1 A D2 B. cbn [flat_map map list_sum fold_right]. rewrite !tok_count_app. change (fold_right Nat.add 0 (map accesses us)) with (list_sum (map accesses us)).
    assert (E : forall Z, sym_count Z (Y :: Ys) = sym_count Z [Y] + sym_count Z Ys) by (intro Z; unfold sym_count; cbn [filter]; destruct (N.eqb Y Z); reflexivity).
    rewrite !E. lia.
Qed.
Lemma not_plain r ts X : derives X (Node r ts) -> leak_here r ts = (if N.eqb r 274 then 1 else 0) + (if on_schema_table (Node r ts) then 1 else 0).
Proof.
  intro D. unfold leak_here. destruct (N.eqb_spec r 274) as [->|N1]; [reflexivity|]. destruct (N.eqb_spec r 58) as [->|N2].
  - inversion D as [|r' lhs rhs ts' P DL]; subst. rewrite prod58 in P. injection P as <- <-.
    destruct (derives_list_nth _ _ DL 5 S_table_name eq_refl) as (t & E & DT). unfold plain_index, on_schema_table. rewrite E.
    assert (T : exists q us, t = Node q us /\ (q = 309%N \/ q = 310%N)).
    { inversion DT as [k H|q lhs rhs us P DU]; subst.
      - exfalso. destruct (yytranslate_range (@code_range k)) as (z & _ & RZ & _ & EZ). rewrite sym_code in EZ. unfold S_table_name in *. lia.
      - exists q, us. split; [reflexivity|]. destruct (@table_rules q us DT) as [|[]]; auto. }
    destruct T as (q & us & -> & Q). do 5 (destruct ts as [|? ts]; [discriminate E|]). destruct ts as [|t5 ts]; [discriminate E|]. cbn [nth_error] in E. injection E as ->.
    destruct Q as [-> | ->]; reflexivity.
  - unfold on_schema_table. destruct r as [|q]; [reflexivity|]. repeat (destruct q as [q|q|]; try reflexivity; try congruence).
Qed.
Lemma leak_split X t : derives X t -> leak_count t = accesses t + schema_indexes t.
Proof.
  intro D. revert X t D. apply (derives_mind (fun X t _ => leak_count t = accesses t + schema_indexes t)
    (fun Xs ts _ => list_sum (map leak_count ts) = list_sum (map accesses ts) + list_sum (map schema_indexes ts))).
  - reflexivity.
  - intros r lhs rhs ts P DL IH. cbn [leak_count accesses schema_indexes]. rewrite IH, (@not_plain r ts lhs) by (econstructor; eassumption). lia.
  - reflexivity.
  - intros Y Ys u us D1 A D2 B. cbn [map list_sum fold_right].
    change (leak_count u + list_sum (map leak_count us) = accesses u + list_sum (map accesses us) + (schema_indexes u + list_sum (map schema_indexes us))). lia.
Qed.
Lemma semi_tokens t : derives S_opt_semicolon t -> forall k, In k (yield t) -> sym_of k = S_semi.
Proof.
  assert (K : forallb (fun p => negb (N.eqb (fst (snd p)) S_opt_semicolon) || forallb (N.eqb S_semi) (snd (snd p))) grammar = true) by (vm_compute; reflexivity).
  rewrite forallb_forall in K. intro D. inversion D as [k H|r lhs rhs ts P DL]; subst.
  - exfalso. destruct (yytranslate_range (@code_range k)) as (z & _ & RZ & _ & EZ). rewrite sym_code in EZ. unfold S_opt_semicolon in *. lia.
  - specialize (K _ (production_In P)). cbn [fst snd] in K. rewrite N.eqb_refl in K. cbn [negb orb] in K. rewrite forallb_forall in K. cbn [yield].
    clear P D. induction DL as [|X Xs u us DU DL IH]; intros k I; [destruct I|]. cbn [flat_map] in I. apply in_app_iff in I as [I|I]; [|apply IH; [intros; apply K; now right|exact I]].
    specialize (K X (or_introl eq_refl)). apply N.eqb_eq in K. subst X. destruct (derives_terminal DU) as (k0 & -> & E); [reflexivity|]. destruct I as [<-|[]]. exact E.
Qed.
Lemma tok_count_zero X ts : (forall t, In t ts -> sym_of t <> X) -> tok_count X ts = 0.
Proof.
  unfold tok_count. induction ts as [|t ts IH]; intro H; [reflexivity|]. cbn [filter]. destruct (N.eqb_spec (sym_of t) X) as [E|_]; [destruct (H t (or_introl eq_refl) E)|].
  apply IH. intros u I. apply H. now right.
Qed.
Lemma heap_count e f n : heap e f -> lost_blocks f n -> List.length (e_live e) = n.
Proof.
  intros [HL HO _] (l & E & <-).
  assert (P : forall x, cntN x (e_live e) = cntN x l) by (intro x; now rewrite HL, E).
  clear -P. revert l P. generalize (e_live e) as k. induction k as [|a k IH]; intros l P.
  - destruct l as [|b l]; [reflexivity|]. specialize (P b). cbn [cntN] in P. rewrite ind_refl in P. lia.
  - assert (M : memN a l = true) by (apply cntN_mem; rewrite <- P; cbn [cntN]; rewrite ind_refl; lia).
    cbn [List.length]. rewrite (IH (removeN a l)).
    + clear -M. induction l as [|b l IH]; [discriminate M|]. cbn [memN existsb] in M. cbn [removeN]. destruct (N.eqb_spec a b) as [->|NE].
      * rewrite ?N.eqb_refl. reflexivity.
      * cbn [List.length]. f_equal. apply IH. exact M.
    + intro x. pose proof (cntN_remove x M) as R. specialize (P x). cbn [cntN] in P. lia.
Qed.

(** ** C55 *)
(** After a successful parse into a fresh object, destroying the object leaves exactly one block for every element access and one for every CREATE INDEX on a
    table with a schema. *)
Theorem C55_leak_account : forall buf0 sql ts r e, tokens sql ts -> parse buf0 sql fresh_env = PRet r e -> e_valid e = true ->
  exists stmts semi eof e', derives S_input (Node 2 [stmts; semi]) /\ yield (Node 2 [stmts; semi]) ++ [eof] = ts /\
    destroy (the_result e) e = ROk tt e' /\ List.length (e_live e') = element_accesses ts + schema_indexes stmts.
Proof.
  intros buf0 sql ts r e T P V. destruct (parse_sound T P) as (S & lost & H & A & _). destruct (destroy_ok S H) as (e' & E & H').
  destruct (A V) as (tl & semi & k & D & Y & SK & _ & L). exists tl, semi, k, e'. split; [exact D|]. split; [cbn [yield flat_map]; rewrite app_nil_r, <- app_assoc; exact Y|].
  split; [exact E|]. rewrite (heap_count _ _ _ H' L).
  inversion D as [|? ? ? ? PR DL]; subst. rewrite production_2 in PR. injection PR as <-. inversion DL as [|? ? ? ? D1 DL1]; subst. inversion DL1 as [|? ? ? ? D2 DL2]; subst.
  rewrite (leak_split _ _ D1). f_equal. pose proof (brackets _ _ D1) as B. change (sym_count S_ARRAY [S_statement_list]) with 0 in B. change (sym_count S_lbrack [S_statement_list]) with 0 in B.
  unfold element_accesses. rewrite !tok_count_app.
  assert (Z : forall X, X <> S_semi -> X <> 0%N -> tok_count X (yield semi) = 0 /\ tok_count X [k] = 0).
  { intros X N1 N2. split; apply tok_count_zero; intros t I; [rewrite (semi_tokens _ D2 t I); congruence|destruct I as [<-|[]]; rewrite SK; congruence]. }
  destruct (Z S_lbrack) as [Z1 Z2]; [discriminate..|]. destruct (Z S_ARRAY) as [Z3 Z4]; [discriminate..|]. lia.
Qed.
(** Three element accesses (and an ARRAY), two indexes on tables with schema and one without. *)
Example C55_example : exists ts e e', tokens (la "SELECT a[1], ARRAY[b[2], c][3] FROM t; CREATE INDEX i ON s.t (a); CREATE INDEX j ON t (b); CREATE INDEX k ON s.u (c, d)") ts /\
  parse [] (la "SELECT a[1], ARRAY[b[2], c][3] FROM t; CREATE INDEX i ON s.t (a); CREATE INDEX j ON t (b); CREATE INDEX k ON s.u (c, d)") fresh_env = PRet 0 e /\ e_valid e = true /\
  element_accesses ts = 3 /\ destroy (the_result e) e = ROk tt e' /\ List.length (e_live e') = 5.
Proof. eexists _, _, _. split; [vm_compute; reflexivity|]. split; [vm_compute; reflexivity|]. split; [reflexivity|]. split; [vm_compute; reflexivity|]. split; vm_compute; reflexivity. Qed.
