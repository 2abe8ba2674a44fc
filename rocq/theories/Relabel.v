(** Positions of tokens do not influence what an input means: only codes and values do.  No code of /repo. *)
From Verif Require Export Meaning LexRel.
From Coq Require Import ZifyBool ZifyNat ZifyN.
Local Open Scope nat_scope.
Set Implicit Arguments.
Unset Strict Implicit.

Section TreeInd.
Variable P : tree -> Prop.
Hypothesis PL : forall k, P (Leaf k).
Hypothesis PN : forall r ts, Forall P ts -> P (Node r ts).
Fixpoint tree_ind2 (t : tree) : P t :=
  match t with
  | Leaf k => PL k
  | Node r ts => PN r ((fix go (ts : list tree) : Forall P ts := match ts with [] => Forall_nil P | u :: us => @Forall_cons _ P u us (tree_ind2 u) (go us) end) ts)
  end.
End TreeInd.

(** Trees that differ in positions only. *)
Fixpoint similar (t u : tree) {struct t} : Prop :=
  match t, u with
  | Leaf a, Leaf b => core a = core b
  | Node r ts, Node s us => r = s /\ (fix go (ts us : list tree) : Prop := match ts, us with [], [] => True | t :: ts', u :: us' => similar t u /\ go ts' us' | _, _ => False end) ts us
  | _, _ => False
  end.
Fixpoint similars (ts us : list tree) : Prop := match ts, us with [], [] => True | t :: ts', u :: us' => similar t u /\ similars ts' us' | _, _ => False end.
Lemma similar_node r ts s us : similar (Node r ts) (Node s us) <-> r = s /\ similars ts us.
Proof. reflexivity. Qed.
Lemma core_sym a b : core a = core b -> sym_of a = sym_of b.
Proof. unfold core, sym_of. congruence. Qed.
(** Every list of tokens with the same codes and values labels such a tree. *)
Lemma relabel t : forall ks, map core (yield t) = map core ks -> exists u, similar t u /\ yield u = ks.
Proof.
  induction t as [k|r ts IH] using tree_ind2; intros ks E.
  - cbn [yield map] in E. destruct ks as [|k' [|]]; try discriminate E. exists (Leaf k'). split; [|reflexivity]. cbn [similar]. cbn [map] in E. congruence.
  - cbn [yield] in E. assert (G : exists us, similars ts us /\ yields us = ks).
    { revert ks E. induction IH as [|t ts H HF IH2]; intros ks E.
      - cbn in E. destruct ks; [|discriminate]. exists []. split; [exact I|reflexivity].
      - cbn [flat_map] in E. rewrite map_app in E. symmetry in E. destruct (map_eq_app _ _ _ _ E) as (k1 & k2 & -> & E1 & E2). symmetry in E1, E2.
        destruct (H _ E1) as (u & S1 & Y1). destruct (IH2 _ E2) as (us & S2 & Y2). exists (u :: us). split; [split; assumption|]. unfold yields in *. cbn [flat_map]. congruence. }
    destruct G as (us & S & Y). exists (Node r us). split; [split; [reflexivity|exact S]|exact Y].
Qed.
Lemma similar_derives X t : derives X t -> forall u, similar t u -> derives X u.
Proof.
  refine (@derives_mind (fun X t _ => forall u, similar t u -> derives X u) (fun Xs ts _ => forall us, similars ts us -> derives_list Xs us) _ _ _ _ X t).
  - intros k [k'|s us] S; [|destruct S]. cbn [similar] in S. rewrite (core_sym S). constructor.
  - intros r lhs rhs ts P _ IH [k'|s us] S; [destruct S|]. apply similar_node in S as [<- S]. econstructor; [exact P|]. apply IH. exact S.
  - intros [|] S; [constructor|destruct S].
  - intros Y Xs t0 ts _ IH _ IH2 [|u us] S; [destruct S|]. destruct S as [S1 S2]. constructor; auto.
Qed.
Lemma similar_yield t : forall u, similar t u -> map core (yield t) = map core (yield u).
Proof.
  induction t as [k|r ts IH] using tree_ind2; intros [k'|s us] S; try (destruct S; fail).
  - cbn [yield map]. cbn [similar] in S. congruence.
  - apply similar_node in S as [_ S]. cbn [yield]. revert us S. induction IH as [|t ts H HF IH2]; intros [|u us] S; try (destruct S; fail); [reflexivity|]. destruct S as [S1 S2].
    cbn [flat_map]. rewrite !map_app. f_equal; auto.
Qed.
Lemma similars_yields ts : forall us, similars ts us -> map core (yields ts) = map core (yields us).
Proof.
  induction ts as [|t ts IH]; intros [|u us] S; try (destruct S; fail); [reflexivity|]. destruct S as [S1 S2]. unfold yields in *. cbn [flat_map]. rewrite !map_app. f_equal; [now apply similar_yield|auto].
Qed.
Lemma similar_left t : forall u, similar t u -> left_edge t = left_edge u.
Proof.
  induction t as [k|r ts IH] using tree_ind2; intros [k'|s us] S; try (destruct S; fail); [reflexivity|].
  apply similar_node in S as [_ S]. destruct ts as [|t ts], us as [|u us]; try (destruct S; fail); [reflexivity|]. destruct S as [S1 S2]. inversion IH as [|? ? H HF]; subst. cbn [left_edge]. f_equal; [|auto].
  destruct ts as [|t2 ts], us as [|u2 us]; try (destruct S2; fail); [reflexivity|]. destruct S2 as [S3 _]. destruct t2, u2; try (destruct S3; fail); [|reflexivity]. cbn [similar] in S3. now rewrite (core_sym S3).
Qed.
Lemma similars_rev ts us : similars ts us -> match rev ts, rev us with [], [] => True | t :: _, u :: _ => similar t u | _, _ => False end.
Proof.
  assert (G : forall ts us, similars ts us -> (ts = [] /\ us = []) \/ exists ts' us' t u, ts = ts' ++ [t] /\ us = us' ++ [u] /\ similar t u).
  { clear. induction ts as [|t ts IH]; intros [|u us] S; try (destruct S; fail); [now left|right]. destruct S as [S1 S2]. destruct (IH _ S2) as [[-> ->]|(ts' & us' & t' & u' & -> & -> & S3)].
    - exists [], [], t, u. auto.
    - exists (t :: ts'), (u :: us'), t', u'. auto. }
  intro S. destruct (G _ _ S) as [[-> ->]|(ts' & us' & t & u & -> & -> & S2)]; [exact I|]. rewrite !rev_app_distr. exact S2.
Qed.
Lemma similars_first ts us nx : similars ts us -> first_of ts nx = first_of us nx.
Proof.
  intro S. apply similars_yields in S. unfold first_of. destruct (yields ts) as [|k l], (yields us) as [|k' l']; try discriminate S; [reflexivity|]. cbn [map] in S. apply core_sym. congruence.
Qed.
Lemma similar_respects t : forall u nx, similar t u -> respects t nx = respects u nx.
Proof.
  induction t as [k|r ts IH] using tree_ind2; intros [k'|s us] nx S; try (destruct S; fail); [reflexivity|].
  apply similar_node in S as [<- S]. rewrite !respects_node. f_equal; [f_equal|].
  - unfold tail_ok. pose proof (similars_rev S) as R. destruct (rev ts), (rev us); try (destruct R; fail); [reflexivity|]. now rewrite (similar_left R).
  - revert us S. induction IH as [|t ts H HF IH2]; intros [|u us] S; try (destruct S; fail); [reflexivity|]. destruct S as [S1 S2]. cbn [respects_all]. rewrite (similars_first nx S2). f_equal; auto.
Qed.
Lemma similar_need t : forall u, similar t u -> need t = need u.
Proof.
  induction t as [k|r ts IH] using tree_ind2; intros [k'|s us] S; try (destruct S; fail); [reflexivity|].
  apply similar_node in S as [_ S]. rewrite !need_node. generalize 0 as i. revert us S. induction IH as [|t ts H HF IH2]; intros [|u us] S i; try (destruct S; fail); [reflexivity|]. destruct S as [S1 S2].
  cbn [need_all]. f_equal; [f_equal|]; auto.
Qed.
Lemma similar_sem t : forall u k, similar t u -> sem t k = sem u k.
Proof.
  induction t as [k0|r ts IH] using tree_ind2; intros [k'|s us] k S; try (destruct S; fail).
  - cbn [similar] in S. cbn [sem]. unfold token_val. unfold core in S. now replace (t_val k') with (t_val k0) by congruence.
  - apply similar_node in S as [<- S]. rewrite !sem_node. replace (sems us k) with (sems ts k); [reflexivity|].
    revert us k S. induction IH as [|t ts H HF IH2]; intros [|u us] k S; try (destruct S; fail); [reflexivity|]. destruct S as [S1 S2]. cbn [sems]. rewrite (H _ k S1). destruct (sem u k) as [[v k1]|]; [|reflexivity]. now rewrite (IH2 _ _ S2).
Qed.
(** The derivation and the meaning depend on codes and values only. *)
Theorem parses_core ts ts' a b eof : map core ts = map core ts' -> parses_as ts a b eof -> exists a' b' eof', parses_as ts' a' b' eof' /\ forall k, sem a' k = sem a k.
Proof.
  intros E (D & Y & K & R & N). rewrite <- Y in E. rewrite map_app in E. symmetry in E. destruct (map_eq_app _ _ _ _ E) as (k1 & k2 & -> & E1 & E2).
  destruct k2 as [|eof' [|]]; try discriminate E2. symmetry in E1. destruct (relabel E1) as (u & SM & YU). destruct u as [|r us]; [destruct SM|]. pose proof SM as SM0. apply similar_node in SM as [<- SM].
  destruct us as [|tl' [|semi' [|]]]; try (destruct SM as [? []]; fail); try (destruct SM as [? [? []]]; fail); try (destruct SM; fail).
  exists tl', semi', eof'. split; [|intro k; symmetry; apply similar_sem; apply SM]. unfold parses_as.
  split; [eapply similar_derives; [exact D|exact SM0]|]. split; [rewrite YU; reflexivity|]. split; [rewrite <- K; apply core_sym; cbn [map] in E2; congruence|].
  split; [rewrite <- R; symmetry; now apply similar_respects|]. rewrite <- (similar_need SM0). exact N.
Qed.
Theorem means_core ts ts' l n : map core ts = map core ts' -> means ts l n -> means ts' l n.
Proof. intros E (a & b & k & P & S). destruct (parses_core E P) as (a' & b' & k' & P' & S'). exists a', b', k'. split; [exact P'|]. now rewrite S'. Qed.
