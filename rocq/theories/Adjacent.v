(** Which productions bring two neighbouring tokens together; no code of /repo (derivation trees only). *)
From Verif Require Import Items Relabel.
From Coq Require Import ZifyBool ZifyNat ZifyN.
Local Open Scope nat_scope.
Set Implicit Arguments.
Unset Strict Implicit.

(** ** LAST sets *)
Definition nth_set (T : list N) (X : N) : N := if terminal X then N.setbit 0 X else nth (N.to_nat (X - 199)) T 0%N.
Fixpoint lor_at (i : nat) (x : N) (T : list N) : list N := match T, i with [], _ => [] | y :: T', O => N.lor x y :: T' | y :: T', S i' => y :: lor_at i' x T' end.
Fixpoint seq_last (last : N -> N) (Xs : list N) : N := (* of the reversed right-hand side *)
  match Xs with [] => 0%N | X :: Xs' => if null X then N.lor (last X) (seq_last last Xs') else last X end.
Definition last_step (T : list N) : list N := fold_left (fun T p => lor_at (N.to_nat (fst (snd p) - 199)) (seq_last (nth_set T) (rev (snd (snd p)))) T) grammar T.
Definition last_table : list N := Eval vm_compute in Nat.iter 30 last_step (repeat 0%N 200).
Definition last_of (X : N) : N := nth_set last_table X.
Definition last_check (p : N * (N * list N)) : bool := subset (seq_last last_of (rev (snd (snd p)))) (last_of (fst (snd p))).
Lemma last_ok : forallb last_check grammar = true.
Proof. vm_compute. reflexivity. Qed.
Lemma seq_last_app f Xs Ys a : N.testbit (seq_last f (Xs ++ Ys)) a = N.testbit (seq_last f Xs) a || forallb null Xs && N.testbit (seq_last f Ys) a.
Proof.
  induction Xs as [|X Xs IH]; cbn [seq_last app forallb]; [now rewrite N.bits_0|]. destruct (null X); cbn [andb]; [|now rewrite orb_false_r]. rewrite !N.lor_spec, IH. now rewrite orb_assoc.
Qed.
Lemma forallb_rev (f : N -> bool) l : forallb f (rev l) = forallb f l.
Proof. induction l as [|x l IH]; [reflexivity|]. cbn [rev]. rewrite forallb_app, IH. cbn. destruct (f x), (forallb f l); reflexivity. Qed.
Lemma derives_list_null Xs ts : derives_list Xs ts -> yields ts = [] -> forallb null Xs = true.
Proof.
  revert Xs. induction ts as [|u us IH]; intros Xs D E; inversion D as [|Y Ys ? ? D1 D2]; subst; [reflexivity|]. cbn [yields flat_map] in E. apply app_eq_nil in E as [E1 E2]. cbn [forallb]. now rewrite (proj1 (derives_first D1) E1), (IH _ D2 E2).
Qed.
Lemma derives_last X t : derives X t -> forall l k, yield t = l ++ [k] -> N.testbit (last_of X) (sym_of k) = true.
Proof.
  refine (@derives_mind (fun X t _ => forall l k, yield t = l ++ [k] -> N.testbit (last_of X) (sym_of k) = true)
    (fun Xs ts _ => forall l k, yields ts = l ++ [k] -> N.testbit (seq_last last_of (rev Xs)) (sym_of k) = true) _ _ _ _ X t).
  - intros k l k' E. destruct l as [|x [|y l]]; cbn in E; try discriminate E. injection E as ->. unfold last_of, nth_set. rewrite sym_terminal. apply N.setbit_eq.
  - intros r lhs rhs ts P _ B l k E. pose proof (proj1 (forallb_forall _ _) last_ok _ (production_mem P)) as C. unfold last_check in C. cbn [fst snd] in C. eapply subset_bit; [exact C|]. eapply B. exact E.
  - intros l k E. now destruct l.
  - intros Y Ys u us D1 A D2 B l k E. cbn [rev]. rewrite seq_last_app. cbn [yields flat_map] in E. fold (yields us) in E. destruct (yields us) as [|k1 l1] eqn:EU.
    + rewrite app_nil_r in E. rewrite forallb_rev, (derives_list_null D2 EU). cbn [seq_last]. specialize (A _ _ E). destruct (null Y); rewrite ?N.lor_spec, A; now rewrite ?orb_true_r.
    + assert (EX : exists l2, k1 :: l1 = l2 ++ [k]).
      { destruct (@exists_last _ (k1 :: l1)) as (l2 & k2 & E2); [discriminate|]. rewrite E2, app_assoc in E. apply app_inj_tail in E as [_ ->]. exists l2. exact E2. }
      destruct EX as (l2 & E2). now rewrite (B _ _ E2).
Qed.
Lemma derives_list_last Xs ts : derives_list Xs ts -> forall l k, yields ts = l ++ [k] -> N.testbit (seq_last last_of (rev Xs)) (sym_of k) = true.
Proof.
  induction 1 as [|Y Ys u us D1 D2 IH]; intros l k E; [now destruct l|]. cbn [rev]. rewrite seq_last_app. cbn [yields flat_map] in E. fold (yields us) in E. destruct (yields us) as [|k1 l1] eqn:EU.
  - rewrite app_nil_r in E. rewrite forallb_rev, (derives_list_null D2 EU). cbn [seq_last]. pose proof (derives_last D1 E) as A. destruct (null Y); rewrite ?N.lor_spec, A; now rewrite ?orb_true_r.
  - assert (EX : exists l2, k1 :: l1 = l2 ++ [k]).
    { destruct (@exists_last _ (k1 :: l1)) as (l2 & k2 & E2); [discriminate|]. rewrite E2, app_assoc in E. apply app_inj_tail in E as [_ ->]. exists l2. exact E2. }
    destruct EX as (l2 & E2). now rewrite (IH _ _ E2).
Qed.

(** ** Neighbours *)
Definition splits (a b : N) (rhs : list N) : list nat :=
  filter (fun i => N.testbit (seq_last last_of (rev (firstn i rhs))) a && N.testbit (seq_first (skipn i rhs) 0) b) (seq 0 (S (List.length rhs))).
(** The productions and positions at which the tokens [a] [b] may come together. *)
Definition meeting (a b : N) : list (N * list nat) := flat_map (fun p => match splits a b (snd (snd p)) with [] => [] | l => [(fst p, l)] end) grammar.
Lemma derives_list_split Xs ts1 ts2 : derives_list Xs (ts1 ++ ts2) -> derives_list (firstn (List.length ts1) Xs) ts1 /\ derives_list (skipn (List.length ts1) Xs) ts2.
Proof.
  revert Xs. induction ts1 as [|u us IH]; intros Xs D; [split; [constructor|exact D]|]. inversion D as [|Y Ys ? ? D1 D2]; subst. cbn [List.length firstn skipn app]. destruct (IH _ D2) as [A B]. split; [now constructor|exact B].
Qed.
Lemma derives_list_length Xs ts : derives_list Xs ts -> List.length ts = List.length Xs.
Proof. induction 1; cbn; congruence. Qed.
(** [sub t l u r]: [u] is a subtree of [t], between the tokens [l] and [r]. *)
Inductive sub : tree -> list token -> tree -> list token -> Prop :=
| sub_here : forall t, sub t [] t []
| sub_in : forall r ts1 t ts2 l u m, sub t l u m -> sub (Node r (ts1 ++ t :: ts2)) (yields ts1 ++ l) u (m ++ yields ts2).
Lemma yields_app a b : yields (a ++ b) = yields a ++ yields b. Proof. unfold yields. apply flat_map_app. Qed.
Lemma sub_yield t l u m : sub t l u m -> yield t = l ++ yield u ++ m.
Proof. induction 1 as [t|r ts1 t ts2 l u m S IH]; [now rewrite app_nil_r|]. cbn [yield]. fold (yields (ts1 ++ t :: ts2)). rewrite yields_app. cbn [yields flat_map]. rewrite IH. fold (yields ts2). now rewrite !app_assoc. Qed.
Lemma sub_derives t l u m : sub t l u m -> forall X, derives X t -> exists Y, derives Y u.
Proof.
  induction 1 as [t|r ts1 t ts2 l u m S IH]; intros X D; [eauto|]. inversion D as [|? ? rhs ? P DL]; subst. destruct (derives_list_split DL) as [_ D2]. inversion D2 as [|Y Ys ? ? E1 E2]; subst. eapply IH. exact E1.
Qed.
Lemma sems_app_some ts1 t ts2 : forall k, sems (ts1 ++ t :: ts2) k <> None -> exists k', sem t k' <> None.
Proof.
  induction ts1 as [|u us IH]; intros k H; cbn [app sems] in H.
  - exists k. now destruct (sem t k).
  - destruct (sem u k) as [[v k1]|]; [|now elim H]. apply (IH k1). now destruct (sems (us ++ t :: ts2) k1).
Qed.
Lemma sub_sem t l u m : sub t l u m -> forall k, sem t k <> None -> exists k', sem u k' <> None.
Proof.
  induction 1 as [t|r ts1 t ts2 l u m S IH]; intros k H; [eauto|]. assert (SS : sems (ts1 ++ t :: ts2) k <> None). { rewrite sem_node in H. now destruct (sems _ k). }
  apply sems_app_some in SS as (k' & SS). exact (IH _ SS).
Qed.
Lemma yields_split ts : forall l1 x y l2, yields ts = l1 ++ x :: y :: l2 ->
  (exists ts1 t ts2 l1' l2', ts = ts1 ++ t :: ts2 /\ yield t = l1' ++ x :: y :: l2' /\ l1 = yields ts1 ++ l1' /\ l2 = l2' ++ yields ts2) \/
  (exists ts1 ts2, ts = ts1 ++ ts2 /\ yields ts1 = l1 ++ [x] /\ yields ts2 = y :: l2).
Proof.
  induction ts as [|t ts IH]; intros l1 x y l2 E; [now destruct l1|]. cbn [yields flat_map] in E. fold (yields ts) in E. apply app_eq_app in E as (l & [[E1 E2]|[E1 E2]]).
  - destruct l as [|x' [|y' l]].
    + cbn [app] in E2. destruct (IH [] x y l2 (eq_sym E2)) as [(ts1 & u & ts2 & a & b & -> & Y & A & B)|(ts1 & ts2 & -> & A & B)].
      * left. exists (t :: ts1), u, ts2, a, b. split; [reflexivity|]. split; [exact Y|]. cbn [yields flat_map]. fold (yields ts1). rewrite E1, app_nil_r. rewrite <- app_assoc, <- A, app_nil_r. auto.
      * right. exists (t :: ts1), ts2. split; [reflexivity|]. cbn [yields flat_map]. fold (yields ts1). rewrite E1, app_nil_r, A. auto.
    + cbn [app] in E2. injection E2 as <- E2. right. exists [t], ts. split; [reflexivity|]. cbn [yields flat_map]. rewrite app_nil_r. split; [exact E1|now symmetry].
    + cbn [app] in E2. injection E2 as <- <- E2. left. exists [], t, ts, l1, l. repeat split; assumption.
  - destruct (IH l x y l2 E2) as [(ts1 & u & ts2 & a & b & -> & Y & A & B)|(ts1 & ts2 & -> & A & B)].
    + left. exists (t :: ts1), u, ts2, a, b. split; [reflexivity|]. split; [exact Y|]. cbn [yields flat_map]. fold (yields ts1). rewrite E1, A. split; [apply app_assoc|exact B].
    + right. exists (t :: ts1), ts2. split; [reflexivity|]. cbn [yields flat_map]. fold (yields ts1). rewrite E1, A. split; [apply app_assoc|exact B].
Qed.
(** The node at which two neighbouring tokens come together. *)
Lemma neighbours X t : derives X t -> forall l1 x y l2, yield t = l1 ++ x :: y :: l2 ->
  exists r ts1 ts2 l m a b il, sub t l (Node r (ts1 ++ ts2)) m /\ yields ts1 = a ++ [x] /\ yields ts2 = y :: b /\ l1 = l ++ a /\ l2 = b ++ m /\ In (r, il) (meeting (sym_of x) (sym_of y)) /\ In (List.length ts1) il.
Proof.
  intro D. revert X D. induction t as [k|r ts IH] using tree_ind2; intros X D l1 x y l2 E; [destruct l1 as [|? [|? ?]]; discriminate E|]. inversion D as [|? ? rhs ? P DL]; subst.
  cbn [yield] in E. fold (yields ts) in E. destruct (yields_split E) as [(ts1 & t & ts2 & a & b & -> & Y & A & B)|(ts1 & ts2 & -> & A & B)].
  - rewrite Forall_app in IH. destruct IH as [_ IH]. inversion_clear IH as [|? ? H1 _]. destruct (derives_list_split DL) as [_ D2]. inversion D2 as [|Z Zs ? ? E1 E2]; subst.
    destruct (H1 _ E1 _ _ _ _ Y) as (q & us1 & us2 & l & m & c & d & il & S & G1 & G2 & -> & -> & I1 & I2). exists q, us1, us2, (yields ts1 ++ l), (m ++ yields ts2), c, d, il. split; [now constructor|]. rewrite !app_assoc. auto 10.
  - destruct (derives_list_split DL) as [D1 D2]. exists r, ts1, ts2, [], [], l1, l2, (splits (sym_of x) (sym_of y) rhs). split; [constructor|]. split; [exact A|]. split; [exact B|]. split; [reflexivity|]. split; [now rewrite app_nil_r|].
    assert (I : In (List.length ts1) (splits (sym_of x) (sym_of y) rhs)).
    { unfold splits. apply filter_In. split; [apply in_seq; pose proof (derives_list_length DL) as L; rewrite app_length in L; lia|]. rewrite (derives_list_last D1 A). cbn [andb].
      assert (F : first_of ts2 (sym_of y) = sym_of y) by (unfold first_of; now rewrite B). revert D2 B. clear. intros D2 B. revert D2. generalize (skipn (List.length ts1) rhs). intros Xs D2. revert l2 B. induction D2 as [|Z Zs u us E1 E2 IH]; intros l2 B; [discriminate B|].
      cbn [yields flat_map] in B. fold (yields us) in B. cbn [seq_first]. destruct (derives_first E1) as [N1 N2]. destruct (yield u) as [|k1 l3] eqn:EU.
      - rewrite N1 by reflexivity. rewrite N.lor_spec, (IH _ B). apply orb_true_r.
      - cbn [app] in B. injection B as <- <-. pose proof (N2 _ _ eq_refl) as F. destruct (null Z); [now rewrite N.lor_spec, F|exact F]. }
    split; [|exact I]. unfold meeting. apply in_flat_map. exists (r, (lhs, rhs)) || exists (r, (X, rhs)). split; [now apply production_mem|]. cbn [snd fst]. destruct (splits (sym_of x) (sym_of y) rhs); [destruct I|now left].
Qed.
