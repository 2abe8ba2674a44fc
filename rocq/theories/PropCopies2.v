(** Property C71, continued: the texts meant there exist for every number of parameters.  Vocabulary: [write] (Write.v) a text for given tokens; [many k]: the statement. *)
From Verif Require Import Copies PropCopies PropParse ParamProof Script PropStmt PropSize Write.
From Verif Require Import LexScan LexWords LexTok Part Expr Stmt Legal.
From Verif Require Import Base TokenCodes LexModel Ast Heap Actions ParseModel Api LexRel.
From Coq Require Import ZifyBool ZifyNat ZifyN.
Local Open Scope nat_scope.

(** There are valid texts with any number of parameters: SELECT ? , ? , ... , ? with [k + 1] question marks is [4 * k + 9] bytes long, is accepted, and makes the parser copy at
    least [(k + 1) * (k + 2) / 2] elements. *)
Definition marks (k : nat) : list (Z * tokval) := [K TOK_SELECT; K 63] ++ List.concat (repeat [K 44; K 63] k).
Definition many (k : nat) : stmt := select_from (repeat (item_ Expr.XParam) (S k)) [] None.
Lemma many_tok k : q_tok (p_stmt (many k)) = marks k.
Proof.
  unfold many, marks. cbn. rewrite !app_nil_r. do 2 f_equal. induction k as [|k IH]; [reflexivity|]. cbn. do 2 f_equal. exact IH.
Qed.
Theorem C71_any_number_of_parameters : forall k, exists ts, tokens (write (marks k)) ts /\ List.length (write (marks k)) = 4 * k + 9 /\
  (forall buf0, exists e, parse buf0 (write (marks k)) fresh_env = PRet 0 e /\ e_valid e = true /\ List.length (e_params e) = k + 1) /\
  qmarks ts = k + 1 /\ (k + 1) * (k + 2) / 2 <= elements_copied ts fresh_env.
Proof.
  intro k. destruct (tokens_total (write (marks k))) as (ts & T & _). exists ts.
  assert (SPL : spells (marks k) (write (marks k))).
  { apply write_spells. unfold marks. rewrite forallb_app. apply andb_true_iff. split; [vm_compute; reflexivity|]. clear. induction k as [|k IH]; [reflexivity|]. cbn [repeat List.concat]. rewrite forallb_app, IH, andb_true_r. vm_compute. reflexivity. }
  assert (PR : q_params (p_stmt (many k)) = k + 1).
  { unfold many. cbn. assert (E : fold_right Init.Nat.add 0 (map q_params (map p_item (repeat (item_ Expr.XParam) k))) = k); [|lia]. clear. induction k as [|k IH]; [reflexivity|]. cbn. f_equal. exact IH. }
  assert (RP : forall P : item -> Prop, P (item_ Expr.XParam) -> Forall P (repeat (item_ Expr.XParam) (S k))) by (intros P H; apply Forall_forall; intros x I; apply repeat_spec in I; now subst x).
  destruct (C29_select_list (repeat (item_ Expr.XParam) (S k)) [] None false (write (marks k))) as (v & A & _).
  - split; cbn.
    + rewrite andb_true_r. cbv [clause_ok PropStmt.plain c_items some c_from c_where c_group c_having if_some]. cbn. rewrite ?andb_true_r. clear. induction k as [|k IH]; [reflexivity|]. cbn. exact IH.
    + rewrite !app_nil_r. clear. induction k as [|k IH]; [constructor|]. cbn. exact IH.
  - cbn. rewrite !andb_true_r. clear. generalize 1. induction k as [|k IH]; intro n; [reflexivity|]. cbn. apply IH.
  - apply RP. cbn. lia.
  - constructor.
  - exact I.
  - fold (many k). rewrite many_tok. cbn [semicolon]. rewrite app_nil_r. exact SPL.
  - fold (many k) in A. rewrite PR in A. split; [exact T|]. split.
    { unfold marks, write. rewrite flat_map_app, app_length. cbn. assert (E : List.length (flat_map (fun t => token_str t ++ [SP]) (List.concat (repeat [K 44; K 63] k))) = 4 * k); [|lia]. clear. induction k as [|k IH]; [reflexivity|]. cbn [repeat List.concat]. rewrite flat_map_app, app_length, IH. change (List.length (flat_map (fun t => token_str t ++ [SP]) [K 44; K 63])) with 4. lia. }
    split; [intro buf0; destruct (A buf0) as (e & E & V & _ & N); eauto|].
    destruct (A []) as (e & E & V & _ & N). destruct (C18_parameters _ _ _ _ _ T E V) as (addrs & QA & EP & _).
    assert (Q : qmarks ts = k + 1). { rewrite <- N, EP, combine_length, map_length, seq_length, QA. lia. }
    split; [exact Q|]. pose proof (C71_parameters_are_quadratic _ _ _ _ _ T E V) as [L _]. rewrite Q in L. replace (k + 1 + 1) with (k + 2) in L by lia. exact L.
Qed.
