(** Property C62: the exact number of blocks a failed parse loses.  No code of /repo.
    Vocabulary: Waste.v ([nblocks], [missed], [spilt], [columns_consistent], [lost_of]); [asteps], [astart], [atrees] (Abs.v): the pieces the parser has
    recognised so far; [leak_sum]: the blocks lost in complete pieces, as counted by C55. *)
From Verif Require Import Script PropParse PropError PropResult History PropHistory PropLeak Overflow PropUndef Left Complaint Cause Fault Waste.
From Verif Require Import Inv InvStep InvRun Abs Prec.
From Coq Require Import ZifyBool ZifyNat ZifyN.
Local Open Scope nat_scope.

(** ** The texts concerned *)
(** Grammar symbols of which every piece has a meaning: nothing in them is checked. *)
Definition unchecked (X : N) : bool :=
  if (X <? 199)%N then true
  else existsb (N.eqb X) [S_column_type; S_opt_time_precision; S_opt_decimal_specification; S_references_spec; S_table_name; S_opt_column_list; S_ident_commalist; S_column_constraint; S_column_constraints; S_opt_column_constraints].
Lemma unchecked_grammar : forallb (fun p => negb (unchecked (fst (snd p))) || negb (existsb (N.eqb (fst p)) (66%N :: Cause.checked)) && forallb unchecked (snd (snd p))) grammar = true.
Proof. vm_compute. reflexivity. Qed.
Lemma unchecked_total X t : derives X t -> unchecked X = true -> forall k, sem t k <> None.
Proof.
  intro D. revert X t D. apply (derives_mind (fun X t _ => unchecked X = true -> forall k, sem t k <> None) (fun Xs us _ => forallb unchecked Xs = true -> forall k, sems us k <> None)).
  - intros q _ k. discriminate.
  - intros r lhs rhs us P D IH N k. pose proof (proj1 (forallb_forall _ _) unchecked_grammar _ (production_In P)) as C. cbn [fst snd] in C. rewrite N in C. cbn [negb orb] in C. apply andb_prop in C as [C1 C2].
    rewrite sem_node. specialize (IH C2 k). destruct (sems us k) as [[vs n]|]; [|congruence]. destruct (asem r n vs) as [v|] eqn:E; [destruct v; discriminate|]. apply asem_checks in E. apply negb_true_iff in C1.
    exfalso. rewrite <- not_true_iff_false in C1. apply C1. apply existsb_exists. exists r. split; [exact E|apply N.eqb_refl].
  - intros _ k. discriminate.
  - intros X Xs t us D IH DL IHL N k. cbn [forallb] in N. apply andb_prop in N as [N1 N2]. cbn [sems]. specialize (IH N1 k). destruct (sem t k) as [[v n]|]; [|congruence]. specialize (IHL N2 n). destruct (sems us n) as [[vs n']|]; congruence.
Qed.
Lemma plain_null_in a k l b : t_code k <> TOK_NOT -> plain_null l -> plain_null (a ++ (k :: l) ++ b).
Proof.
  intros NK (l1 & q & l2 & -> & Q & H). exists (a ++ k :: l1), q, (l2 ++ b). split; [rewrite <- !app_assoc; cbn [app]; rewrite <- app_assoc; reflexivity|]. split; [exact Q|].
  intros l0 n E. destruct l1 as [|c l1] using rev_ind.
  - apply app_inj_tail in E as [_ <-]. exact NK.
  - apply (H l1). f_equal. change (a ++ k :: l1 ++ [c]) with (a ++ (k :: l1) ++ [c]) in E. rewrite app_assoc in E. apply app_inj_tail in E as [_ <-]. reflexivity.
Qed.
(** A text that never says NULL (other than NOT NULL), or says neither NOT nor PRIMARY, has no conflicting column. *)
Theorem columns_consistent_by_tokens : forall sql ts, tokens sql ts ->
  ~ plain_null ts \/ (~ has_token TOK_NOT ts /\ ~ has_token TOK_PRIMARY ts) -> columns_consistent ts.
Proof.
  intros sql ts T C t k a b D E N.
  destruct (rules_of D) as (r & us & -> & I & rhs & P & DL); [vm_compute; discriminate|]. vm_compute in I. destruct I as [<-|[]]. 
  assert (O : exists vs n, sems us k = Some (vs, n)).
  { vm_compute in P. injection P as <-. inversion DL as [|? ? t1 ? D1 DL1]; subst. inversion DL1 as [|? ? t2 ? D2 DL2]; subst. inversion DL2 as [|? ? t3 ? D3 DL3]; subst. inversion DL3; subst. cbn [sems].
    pose proof (unchecked_total _ _ D1 eq_refl k) as U1. destruct (sem t1 k) as [[v1 k1]|]; [|congruence]. pose proof (unchecked_total _ _ D2 eq_refl k1) as U2. destruct (sem t2 k1) as [[v2 k2]|]; [|congruence].
    pose proof (unchecked_total _ _ D3 eq_refl k2) as U3. destruct (sem t3 k2) as [[v3 k3]|]; [|congruence]. eauto. }
  destruct O as (vs & n & SE). rewrite sem_node, SE in N.
  assert (AN : asem 66 n vs = None) by (destruct (asem 66 n vs); [discriminate N|reflexivity]).
  assert (F : faulty (yield (Node 66 us)) (complaint 66 vs)).
  { refine (fault_of T D _ _); [intros q Q; rewrite E, !in_app_iff; auto|]. exists 66%N, us, k, vs, n. auto. }
  cbn [complaint] in F. revert E. inversion F as [| | | | | | | | |q s l WQ PN HT EL EM| | | | |]; try discriminate; intro E.
  cbn [yield] in E. rewrite <- EL in E. assert (NQ : t_code q <> TOK_NOT) by (destruct WQ as [-> _]; discriminate).
  destruct C as [C|[C1 C2]].
  - apply C. rewrite E. exact (plain_null_in _ _ _ _ NQ PN).
  - destruct HT as [(x & Ix & X)|(x & Ix & X)]; [apply C1|apply C2]; exists x; (split; [|exact X]); rewrite E, !in_app_iff; right; left; now right.
Qed.

(** ** C62 *)
(** After a failed parse into a fresh object, destroying the object leaves exactly the blocks of the account. *)
Theorem C62_failed_parse_account : forall buf0 sql ts r e, tokens sql ts -> parse buf0 sql fresh_env = PRet r e -> e_valid e = false -> columns_consistent ts ->
  exists a n e', asteps (astart ts) a /\ lost_of ts a n /\ destroy (the_result e) e = ROk tt e' /\ List.length (e_live e') = n.
Proof.
  intros buf0 sql ts r e T P V CC. destruct (parse_sound T P) as (S & lost0 & H0 & _). destruct (tokens_end T) as (EE & TO & LB).
  unfold parse in P. rewrite LB in P. destruct (yyparse ts fresh_env) as [r1 e1|u|] eqn:Y; try discriminate P. injection P as <- <-.
  cbn [set_valid e_valid] in V. assert (R1 : r1 <> 0%Z) by lia. destruct (@yyparse_waste ts fresh_env (fun _ => 0) TO eq_refl eq_refl CC r1 e1 EE heap_fresh Y R1) as (a & w & n & A & H & L & W).
  exists a, n.
  match goal with S : sound_result (the_result ?e2) |- _ => assert (H2 : heap e2 (fun x => owned (the_result e2) x + w x)) end.
  { apply (@heap_env e1); [reflexivity|reflexivity|]. eapply heap_ext; [exact H|]. intro x. unfold owned, the_result. cbn [r_stmts r_msg set_valid e_stmts e_msg]. lia. }
  destruct (destroy_ok S H2) as (e' & E & H'). exists e'. split; [exact A|]. split; [exact W|]. split; [exact E|]. exact (heap_count _ _ _ H' L).
Qed.

(** The account of one text: the pieces recognised when it failed, and what the destroyed object leaves. *)
Fixpoint arun (n : nat) (a : astate) : astate := match n with 0 => a | Datatypes.S n => match astep a with ACont b => arun n b | _ => a end end.
Lemma arun_steps n : forall a, asteps a (arun n a).
Proof. induction n as [|n IH]; intro a; [constructor|]. cbn [arun]. destruct (astep a) eqn:E; try constructor. eapply as_step; [exact E|apply IH]. Qed.
(** The elements of a SET list are freed, what they refer to is not: two columns and two expressions. *)
Definition cut_update : bytes := la "UPDATE t SET a = 1, b = 2 WHERE )".
Definition toks_of (sql : bytes) : list token := match lex_all [] sql with Some ts => ts | None => [] end.
Lemma cut_tokens : tokens cut_update (toks_of cut_update).
Proof. vm_compute. reflexivity. Qed.
Lemma cut_nulls : ~ plain_null (toks_of cut_update).
Proof.
  assert (A : forallb (fun k => negb (t_code k =? TOK_NULL)%Z) (toks_of cut_update) = true) by (vm_compute; reflexivity). rewrite forallb_forall in A.
  intros (l1 & k & l2 & E & K & _). specialize (A k). rewrite E, in_app_iff, K in A. specialize (A (or_intror (or_introl eq_refl))). discriminate A.
Qed.
Definition cut_state : astate := arun 100 (astart (toks_of cut_update)).
Example C62_example_update : tokens cut_update (toks_of cut_update) /\ columns_consistent (toks_of cut_update) /\ asteps (astart (toks_of cut_update)) cut_state /\ astep cut_state = ASyntax /\ (exists vs k, sems (atrees cut_state) 0 = Some (vs, k) /\ missed_all [S_UPDATE; S_table_ref_name_no_alias; S_SET; S_update_clause_commalist; S_WHERE] vs = 4) /\ leak_sum (atrees cut_state) = 0 /\ exists e e', parse [] cut_update fresh_env = PRet 1 e /\ e_valid e = false /\ destroy (the_result e) e = ROk tt e' /\ List.length (e_live e') = 4.
Proof.
  split; [exact cut_tokens|]. split; [exact (columns_consistent_by_tokens _ _ cut_tokens (or_introl cut_nulls))|]. split; [apply arun_steps|]. split; [vm_compute; reflexivity|].
  split; [eexists _, _; split; [vm_compute; reflexivity|vm_compute; reflexivity]|]. split; [vm_compute; reflexivity|].
  eexists _, _. split; [vm_compute; reflexivity|]. split; [reflexivity|]. split; [vm_compute; reflexivity|reflexivity].
Qed.
Definition lost_after (sql : bytes) : option (bool * nat) :=
  match parse [] sql fresh_env with PRet _ e => match destroy (the_result e) e with ROk _ e' => Some (e_valid e, List.length (e_live e')) | _ => None end | _ => None end.
(** A WITH list is freed without its queries; an element access (C55) is lost whatever follows; the unknown file type; a locking clause; the constraints of a column. *)
Example C62_example_counts : map lost_after [la "WITH a AS (SELECT b FROM c) SELECT ;"; la "SELECT a[1], c[2] FROM WHERE"; la "CREATE TABLE s.t FROM x FILE 'f'"; la "SELECT a FROM t FOR UPDATE OF x, y FOR";
    la "CREATE TABLE t (a INT PRIMARY KEY UNIQUE REFERENCES u(b) NOT"; la "UPDATE t SET a = 1, b = 2 3"]
  =
  [Some (false, 8); Some (false, 2); Some (false, 4); Some (false, 4); Some (false, 6); Some (false, 0)].
Proof. vm_compute. reflexivity. Qed.
