(** Property C63: a script is its statements.

    Vocabulary.  [accepted_with sql l n] (PropGrammar.v): parse accepts [sql] with the statement objects [l] (addresses and stringLength forgotten) and [n] parameters.
    [tokens sql ts]: the tokens of the input, the last one being the end of input; [cores sql l] (PropLex.v): their codes and values are [l].  [stretch ts i before g stop after]
    (PropLength.v): [g] are the tokens between the [i]-th semicolon and the next one (or the end of input), [before] those before [g].  [ren d v] (Renumber.v): the object tree
    [v] with [d] added to the index of every parameter in it.  [semicolon b] (Phrase.v): a semicolon if [b]. *)
From Verif Require Import Script PropStmt Renumber Length PropLength.
From Coq Require Import ZifyBool ZifyNat ZifyN.
Local Open Scope nat_scope.
Set Implicit Arguments.
Unset Strict Implicit.

(** ** Specification *)
Definition is_qmark (t : token) : bool := N.eqb (sym_of t) S_qmark.
(** The question marks among the tokens. *)
Definition qmarks (w : list token) : nat := List.length (filter is_qmark w).

(** ** The stretches are determined by the input *)
Lemma semis_in w k : In k w -> is_semi k = true -> 0 < semis w.
Proof. intros I E. unfold semis. assert (F : In k (filter is_semi w)) by (apply filter_In; auto). destruct (filter is_semi w); [destruct F|cbn; lia]. Qed.
Lemma semis_none w k : semis w = 0 -> In k w -> is_semi k = false.
Proof. intros Z I. destruct (is_semi k) eqn:E; [|reflexivity]. pose proof (semis_in I E). lia. Qed.
Lemma app_cases A (a b c d : list A) : a ++ b = c ++ d -> exists x, (a = c ++ x /\ d = x ++ b) \/ (c = a ++ x /\ b = x ++ d).
Proof.
  revert c. induction a as [|h a IH]; intros c E; [exists c; right; auto|]. destruct c as [|h' c]; [exists (h :: a); left; auto|]. cbn in E. injection E as -> E. destruct (IH _ E) as (x & [[-> ->]|[-> ->]]); exists x; auto.
Qed.
Lemma stretch_unique ts i b g s a b' g' s' a' : ends_eof ts -> stretch ts i b g s a -> stretch ts i b' g' s' a' -> b = b' /\ g = g' /\ s = s' /\ a = a'.
Proof.
  intros EE [A1 A2 A3 A4 A5] [B1 B2 B3 B4 B5].
  assert (BB : b = b').
  { assert (H : forall p q x, q = p ++ x -> semis q = semis p -> (q = [] \/ exists w k, q = w ++ [k] /\ is_semi k = true) -> p = q).
    { clear. intros p q x -> E H. rewrite semis_app in E. destruct x as [|y x _] using rev_ind; [now rewrite app_nil_r|]. exfalso. destruct H as [H|(w & k & H & K)]; [destruct p, x; discriminate H|].
      rewrite app_assoc in H. apply app_inj_tail in H as [_ ->]. rewrite semis_app in E. unfold semis in E at 3. cbn [filter] in E. rewrite K in E. cbn in E. lia. }
    rewrite A1 in B1. destruct (app_cases B1) as (x & [[E _]|[E _]]); [symmetry|]; apply (H _ _ x E); try congruence; assumption. }
  subst b'. rewrite A1 in B1. apply app_inv_head in B1. split; [reflexivity|].
  assert (K : forall (w : list token) k (u : list token) k2 (v : list token) m, ts = b ++ w ++ k :: u ++ k2 :: v -> semis m = 0 -> In k m -> is_semi k = true \/ sym_of k = 0%N -> False).
  { intros w k u k2 v m T M I [E|E]; [rewrite (semis_none M I) in E; discriminate E|]. apply sym_end in E. assert (0 < t_code k)%Z; [|lia]. eapply (ends_mid _ EE (b ++ w) k (u ++ k2 :: v)); [rewrite T, <- app_assoc; reflexivity|destruct u; discriminate]. }
  destruct (app_cases B1) as (x & [[E1 E2]|[E1 E2]]); (destruct x as [|y x]; [cbn [app] in E2; rewrite app_nil_r in E1; subst; injection E2 as -> ->; auto|exfalso; injection E2 as <- ->]).
  - eapply (K g' s' x s a g); [rewrite A1, E1, <- app_assoc; reflexivity|exact A4|rewrite E1; apply in_or_app; right; now left|exact B5].
  - eapply (K g s x s' a' g'); [rewrite A1; reflexivity|exact B4|rewrite E1; apply in_or_app; right; now left|exact A5].
Qed.

(** ** Derivations *)
Lemma may_end_stop r : may_end r S_semi = true /\ may_end r 0 = true.
Proof. unfold may_end, extends. destruct (existsb (N.eqb r) [217; 218]%N); rewrite !andb_false_r; split; reflexivity. Qed.
Lemma respects_stop t : respects t S_semi = respects t 0.
Proof.
  induction t as [k|r ts IH] using tree_list_ind; [reflexivity|]. rewrite !respects_node. destruct (may_end_stop r) as [-> ->]. f_equal. induction IH as [|u us H HF IH2]; [reflexivity|]. cbn [respects_all]. rewrite IH2. f_equal.
  unfold first_of. destruct (yields us); [exact H|reflexivity].
Qed.
Lemma qmarks_app a b : qmarks (a ++ b) = qmarks a + qmarks b.
Proof. unfold qmarks. rewrite filter_app, app_length. reflexivity. Qed.
Definition one (X : N) : nat := if N.eqb X S_qmark then 1 else 0.
Lemma qmark_rhs r lhs rhs : production r = Some (lhs, rhs) -> one lhs = 0 /\ list_sum (map one rhs) = if N.eqb r 298 then 1 else 0.
Proof.
  assert (A : forallb (fun p => (if N.eqb (fst (snd p)) S_qmark then false else true) && Nat.eqb (list_sum (map one (snd (snd p)))) (if N.eqb (fst p) 298 then 1 else 0)) grammar = true) by (vm_compute; reflexivity).
  rewrite forallb_forall in A. intro P. apply production_In in P. specialize (A _ P). cbn [fst snd] in A. apply andb_prop in A as [A1 A2]. split; [|now apply Nat.eqb_eq]. unfold one. destruct (N.eqb lhs S_qmark); [discriminate A1|reflexivity].
Qed.
Lemma sem_count : (forall X t, derives X t -> forall k v n, sem t k = Some (v, n) -> n + one X = k + qmarks (yield t)) /\
  (forall Xs ts, derives_list Xs ts -> forall k vs n, sems ts k = Some (vs, n) -> n + list_sum (map one Xs) = k + qmarks (yields ts)).
Proof.
  apply derives_both.
  - intros t k v n E. cbn [sem] in E. assert (n = k) by congruence. subst n. unfold qmarks, is_qmark, one. cbn [yield filter]. destruct (N.eqb (sym_of t) S_qmark); cbn; lia.
  - intros r X rhs ts P _ IH k v n E. rewrite sem_node in E. destruct (sems ts k) as [[vs k1]|] eqn:S; [|discriminate E]. specialize (IH _ _ _ S). destruct (qmark_rhs P) as [-> Q]. rewrite Q in IH.
    destruct (asem r k1 vs); [|discriminate E]. change (yield (Node r ts)) with (yields ts). destruct (N.eqb r 298); assert (n = k1 \/ n = Datatypes.S k1) by (try (left; congruence); right; congruence).
    + assert (n = Datatypes.S k1) by congruence. lia.
    + assert (n = k1) by congruence. lia.
  - intros k vs n E. cbn [sems] in E. assert (n = k) by congruence. subst. reflexivity.
  - intros X Xs t ts _ IH1 _ IH2 k vs n E. cbn [sems] in E. destruct (sem t k) as [[v k1]|] eqn:S1; [|discriminate E]. destruct (sems ts k1) as [[ws k2]|] eqn:S2; [|discriminate E]. assert (n = k2) by congruence. subst n.
    specialize (IH1 _ _ _ S1). specialize (IH2 _ _ _ S2). change (yields (t :: ts)) with (yield t ++ yields ts). rewrite qmarks_app. cbn [map list_sum fold_right]. unfold list_sum in IH2. lia.
Qed.

(** The statements of a list: their trees, the tokens before them and behind them. *)
Definition finish (v : val) : val := with_ [(F_stringLength, VInt 0)] v.
Record part (tl : tree) (extra : nat) (i : nat) (before g rest : list token) (s : tree) : Prop := {
  pa_all : yield tl = before ++ g ++ rest;
  pa_before : semis before = i;
  pa_start : before = [] /\ extra = 0 \/ (exists w k, before = w ++ [k] /\ is_semi k = true) /\ extra = 2;
  pa_inside : semis g = 0;
  pa_rest : rest = [] \/ exists k r, rest = k :: r /\ is_semi k = true;
  pa_derives : derives S_statement s;
  pa_yield : yield s = g;
  pa_respects : respects s 0 = true;
  pa_need : extra + need s <= need tl }.
Lemma list_parts tl : derives S_statement_list tl -> respects tl 0 = true -> forall v n, sem tl 0 = Some (v, n) ->
  exists L, v = VVec 0 L /\ List.length L = Datatypes.S (semis (yield tl)) /\ forall i x, nth_error L i = Some x -> exists before g rest s e w, part tl e i before g rest s /\ sem s (qmarks before) = Some (w, qmarks (before ++ g)) /\ x = finish w.
Proof.
  intros D. assert (G : forall m t, derives S_statement_list t -> tree_size t <= m -> respects t 0 = true -> forall v n, sem t 0 = Some (v, n) ->
    exists L, v = VVec 0 L /\ List.length L = Datatypes.S (semis (yield t)) /\ forall i x, nth_error L i = Some x -> exists before g rest s e w, part t e i before g rest s /\ sem s (qmarks before) = Some (w, qmarks (before ++ g)) /\ x = finish w); [|exact (G _ tl D (le_n _))].
  clear. induction m as [|m IH]; intros t DT L R v n E; [destruct t as [|? [|]]; cbn in L; lia|]. destruct (list_root DT) as (r & us & -> & RR). inversion DT as [|? ? rhs ? P DL]; subst.
  destruct (N.eqb_spec r 3) as [->|_]; [|destruct (N.eqb_spec r 4) as [->|_]; [|discriminate RR]]; clear RR.
  - assert (PR : production 3 = Some (S_statement_list, [S_statement])) by reflexivity. rewrite PR in P. injection P as <-.
    inversion DL as [|? ? s0 ? DS DN]; subst. inversion DN; subst. pose proof (proj1 no_semi_all _ _ DS eq_refl) as NS. assert (Y : yield (Node 3 [s0]) = yield s0) by (cbn; apply app_nil_r).
    rewrite sem_node in E. cbn [sems] in E. destruct (sem s0 0) as [[w k1]|] eqn:S0; [|discriminate E]. cbn [asem nth Nat.pred] in E. assert (EV : v = vec [finish w]) by (unfold finish; congruence). subst v. exists [finish w]. split; [reflexivity|].
    rewrite Y, NS. split; [reflexivity|]. intros [|i] x EX; [|destruct i; discriminate EX]. cbn [nth_error] in EX. injection EX as <-. exists [], (yield s0), [], s0, 0, w. split; [|split; [|reflexivity]].
    + rewrite respects_node in R. apply andb_prop in R as [_ R]. cbn [respects_all] in R. apply andb_prop in R as [R _]. change (first_of [] 0) with 0%N in R. constructor; auto. rewrite need_node. cbn [need_all]. lia.
    + pose proof (proj1 sem_count _ _ DS _ _ _ S0) as C. change (one S_statement) with 0 in C. change (qmarks []) with 0. rewrite S0. repeat f_equal. cbn [app]. lia.
  - assert (PR : production 4 = Some (S_statement_list, [S_statement_list; S_semi; S_statement])) by reflexivity. rewrite PR in P. injection P as <-.
    inversion DL as [|? ? t1 ? D1 DN]; subst. inversion DN as [|? ? t2 ? D2 DN2]; subst. inversion DN2 as [|? ? t3 ? D3 DN3]; subst. inversion DN3; subst. clear DN DN2 DN3.
    destruct (derives_terminal D2) as (k & -> & SK); [reflexivity|]. pose proof (proj1 no_semi_all _ _ D3 eq_refl) as NS. pose proof (is_semi_sym _ SK) as IK.
    assert (Y : yield (Node 4 [t1; Leaf k; t3]) = yield t1 ++ [k] ++ yield t3) by (cbn; now rewrite app_nil_r).
    rewrite sem_node in E. cbn [sems] in E. destruct (sem t1 0) as [[v1 k1]|] eqn:S1; [|discriminate E]. change (sem (Leaf k) k1) with (Some (token_val k, k1)) in E. cbv iota beta in E.
    destruct (sem t3 k1) as [[w k3]|] eqn:S3; [|discriminate E]. cbn [asem nth Nat.pred] in E. assert (EV : v = snoc v1 (finish w)) by (unfold finish; congruence).
    rewrite respects_node in R. apply andb_prop in R as [_ R]. cbn [respects_all] in R. apply andb_prop in R as [R1 R]. apply andb_prop in R as [_ R]. apply andb_prop in R as [R3 _]. change (first_of [] 0) with 0%N in R3.
    assert (F1 : first_of [Leaf k; t3] 0 = S_semi) by (unfold first_of; cbn; exact SK). rewrite F1, respects_stop in R1.
    destruct (IH t1 D1) with (v := v1) (n := k1) as (L1 & -> & LL & F); [cbn in L; lia|exact R1|exact S1|]. exists (L1 ++ [finish w]). split; [exact EV|].
    assert (SM : semis (yield (Node 4 [t1; Leaf k; t3])) = Datatypes.S (semis (yield t1))).
    { rewrite Y, !semis_app, NS. unfold semis at 2. cbn [filter]. rewrite IK. cbn. lia. }
    split; [rewrite app_length, LL, SM; cbn; lia|]. intros i x EX.
    assert (Q1 : k1 = qmarks (yield t1)) by (pose proof (proj1 sem_count _ _ D1 _ _ _ S1) as C; change (one S_statement_list) with 0 in C; lia).
    destruct (lt_dec i (List.length L1)) as [LT|GE].
    + rewrite nth_error_app1 in EX by exact LT. destruct (F i x EX) as (bf & g & rest & s & e & w' & [A1 A2 A3 A4 A5 A6 A7 A8 A9] & SS & ->). exists bf, g, (rest ++ [k] ++ yield t3), s, e, w'. split; [|auto].
      constructor; auto; [rewrite Y, A1, <- !app_assoc; reflexivity| |].
      * destruct A5 as [->|(q & r & -> & Q)]; [right; exists k, (yield t3); auto|right; exists q, (r ++ [k] ++ yield t3); auto].
      * rewrite need_node. cbn [need_all]. lia.
    + rewrite nth_error_app2 in EX by lia. destruct (i - List.length L1) as [|j] eqn:EJ; [|destruct j; discriminate EX]. cbn [nth_error] in EX. injection EX as <-. exists (yield t1 ++ [k]), (yield t3), [], t3, 2, w. split; [|split; [|reflexivity]].
      * constructor; auto; [rewrite Y, app_nil_r, <- app_assoc; reflexivity| |right; split; [eauto|reflexivity]|].
        -- rewrite semis_app. unfold semis at 2. cbn [filter]. rewrite IK. cbn. lia.
        -- rewrite need_node. cbn [need_all]. lia.
      * pose proof (proj1 sem_count _ _ D3 _ _ _ S3) as C. change (one S_statement) with 0 in C.
        assert (QK : qmarks [k] = 0) by (unfold qmarks, is_qmark; cbn [filter]; rewrite SK; reflexivity). rewrite !qmarks_app, QK, <- Q1, Nat.add_0_r, S3. repeat f_equal. lia.
Qed.

(** ** One statement as an input *)
Definition stop_tree (b : bool) : tree := if b then Node 354 [Leaf (mk (59%Z, TVNone))] else Node 355 [].
Lemma stop_facts b : derives S_opt_semicolon (stop_tree b) /\ map core (yield (stop_tree b)) = semicolon b /\ respects (stop_tree b) 0 = true /\ need (stop_tree b) = 1 /\ semis (yield (stop_tree b)) = if b then 1 else 0.
Proof.
  destruct b; (split; [|repeat split]).
  - apply (@wf_derives (Node 354 [Leaf (mk (59%Z, TVNone))])). vm_compute. reflexivity.
  - apply (@wf_derives (Node 355 [])). vm_compute. reflexivity.
Qed.
(** A list tree with a trailing semicolon or not is an input. *)
Lemma list_input t b ts : derives S_statement_list t -> respects t 0 = true -> need t <= 198 -> map core ts = map core (yield t) ++ semicolon b ++ [(0%Z, TVNone)] ->
  exists t' b' eof, parses_as ts t' b' eof /\ forall k, sem t' k = sem t k.
Proof.
  intros D R N E. destruct (stop_facts b) as (D2 & Y2 & R2 & N2 & _). set (t2 := stop_tree b) in *.
  assert (P : parses_as (yield (Node 2 [t; t2]) ++ [mk (0%Z, TVNone)]) t t2 (mk (0%Z, TVNone))).
  { unfold parses_as. split; [econstructor; [apply production_2|]; repeat (constructor; try eassumption)|]. split; [reflexivity|]. split; [reflexivity|]. split.
    - rewrite respects_node. destruct (may_end_stop 2) as [_ ->]. replace (Prec.tail_ok 2 [t; t2]) with true; [|symmetry; unfold Prec.tail_ok; cbn [rev app]; apply forallb_forall; intros; reflexivity].
      cbn [respects_all andb]. change (first_of [] 0) with 0%N. rewrite R2, !andb_true_r. assert (F : first_of [t2] 0 = S_semi \/ first_of [t2] 0 = 0%N) by (unfold t2; destruct b; [left|right]; reflexivity).
      destruct F as [-> | ->]; [rewrite respects_stop|]; exact R.
    - rewrite need_node. cbn [need_all]. lia. }
  eapply parses_core with (ts' := ts) in P; [exact P|]. rewrite E, map_app. cbn [yield flat_map]. now rewrite app_nil_r, map_app, Y2, app_assoc.
Qed.
Lemma tokens_eof sql ts : tokens sql ts -> ends_eof ts.
Proof. intro T. destruct (tokens_total sql) as (ts' & T' & EE & _). unfold tokens in *. congruence. Qed.
Lemma finish_ren d v : ren d (finish v) = finish (ren d v).
Proof. unfold finish. now rewrite ren_with. Qed.
(** Where the statements of an accepted input are. *)
Lemma accepted_parts sql ts L n : tokens sql ts -> accepted_with sql L n -> exists tl semi eof, parses_as ts tl semi eof /\ sem tl 0 = Some (VVec 0 L, n) /\ n = qmarks (yield tl) /\
  forall i, i < List.length L -> exists before g stop after, stretch ts i before g stop after /\ exists s e w, (exists rest, part tl e i before g rest s) /\ sem s (qmarks before) = Some (w, qmarks (before ++ g)) /\ nth_error L i = Some (finish w).
Proof.
  intros T A. pose proof (tokens_eof T) as EE. apply (accepted_means _ _ _ _ T) in A. destruct A as (tl & sm & k & P & S). exists tl, sm, k. split; [exact P|]. split; [exact S|]. destruct P as (D & Y & K & R & NN).
  inversion D as [|? ? ? ? PR DL]; subst. rewrite production_2 in PR. injection PR as <-. inversion DL as [|? ? ? ? D1 DL1]; subst. inversion DL1 as [|? ? ? ? D2 DL2]; subst. inversion DL2; subst. clear DL DL1 DL2.
  split; [pose proof (proj1 sem_count _ _ D1 _ _ _ S) as C; change (one S_statement_list) with 0 in C; lia|].
  assert (YY : yield (Node 2 [tl; sm]) ++ [k] = yield tl ++ yield sm ++ [k]) by (cbn [yield flat_map]; rewrite app_nil_r, <- app_assoc; reflexivity). rewrite YY in *.
  rewrite respects_node in R. apply andb_prop in R as [_ R]. cbn [respects_all] in R. apply andb_prop in R as [R _].
  assert (TAIL : exists stop after, yield sm ++ [k] = stop :: after /\ (is_semi stop = true \/ sym_of stop = 0%N)).
  { inversion D2 as [q H|r ? rhs us PR DL E1 E2]; subst.
    - exfalso. pose proof (sym_small q) as L0. rewrite H in L0. vm_compute in L0. discriminate L0.
    - assert (RR : rhs = [] \/ rhs = [S_semi]).
      { assert (A : forallb (fun p => if N.eqb (fst (snd p)) S_opt_semicolon then match snd (snd p) with [] => true | [X] => N.eqb X S_semi | _ => false end else true) grammar = true) by (vm_compute; reflexivity).
        rewrite forallb_forall in A. apply production_In in PR. specialize (A _ PR). cbn [fst snd] in A. rewrite N.eqb_refl in A. destruct rhs as [|X [|]]; try discriminate A; [now left|right]. apply N.eqb_eq in A. now subst X. }
      destruct RR as [->| ->].
      + inversion DL; subst. exists k, []. cbn. auto.
      + inversion DL as [|? ? t ? DT DN]; subst. inversion DN; subst. destruct (derives_terminal DT) as (q & -> & SQ); [reflexivity|]. exists q, [k]. cbn. split; [reflexivity|]. left. exact (is_semi_sym _ SQ). }
  destruct TAIL as (stop & after & TL & TS).
  assert (F1 : respects tl (first_of [sm] 0) = respects tl 0).
  { assert (F : first_of [sm] 0 = S_semi \/ first_of [sm] 0 = 0%N); [|destruct F as [-> | ->]; [apply respects_stop|reflexivity]]. unfold first_of. replace (yields [sm]) with (yield sm) by (cbn; now rewrite app_nil_r).
    destruct (yield sm) as [|q y]; [now right|left]. cbn [app] in TL. injection TL as -> TL. destruct TS as [TS|TS]; [now apply N.eqb_eq in TS|]. exfalso. apply sym_end in TS.
    assert (0 < t_code stop)%Z; [|lia]. eapply (ends_mid _ EE (yield tl) stop after); [rewrite <- TL; reflexivity|]. rewrite <- TL. destruct y; discriminate. }
  rewrite F1 in R. destruct (list_parts D1 R S) as (L' & EL & LL & PA). assert (L' = L) by congruence. subst L'. intros i LI.
  destruct (nth_error L i) as [x|] eqn:EX; [|apply nth_error_None in EX; lia]. destruct (PA i x EX) as (bf & g & rest & s & e & w & PT & SS & ->). pose proof PT as [A1 A2 A3 A4 A5 A6 A7 A8 A9].
  destruct A5 as [->|(q & r & -> & Q)].
  - exists bf, g, stop, after. split; [|exists s, e, w; eauto]. constructor; auto; [rewrite A1, TL, app_nil_r, <- app_assoc; reflexivity|destruct A3 as [[A3 _]|[A3 _]]; auto].
  - exists bf, g, q, (r ++ yield sm ++ [k]). split; [|exists s, e, w; eauto]. constructor; auto; [rewrite A1, <- !app_assoc; reflexivity|destruct A3 as [[A3 _]|[A3 _]]; auto].
Qed.

(** ** The theorem *)
(** The statements of an accepted script are those that its pieces between the semicolons denote when they are parsed alone (with or without a semicolon behind), the parameters being
    counted through the script. *)
Theorem C63_split : forall sql ts L n, tokens sql ts -> accepted_with sql L n ->
  forall i before g stop after, i < List.length L -> stretch ts i before g stop after ->
  forall text b, cores text (map core g ++ semicolon b ++ [(0%Z, TVNone)]) ->
  exists s, accepted_with text [s] (qmarks g) /\ nth_error L i = Some (ren (Z.of_nat (qmarks before)) s).
Proof.
  intros sql ts L n T A i bf g stop after LI ST text b (us & TU & EU). destruct (accepted_parts T A) as (tl & sm & k & P & S & _ & PA).
  destruct (PA i LI) as (bf' & g' & stop' & after' & ST' & s & e & w & (rest & PT) & SS & EX). destruct (stretch_unique (tokens_eof T) ST ST') as (<- & <- & <- & <-). clear ST' PA.
  destruct PT as [A1 A2 A3 A4 A5 A6 A7 A8 A9]. pose proof (@sem_ren (qmarks bf) _ _ A6 0) as RN. rewrite Nat.add_0_l, SS in RN. destruct (sem s 0) as [[w0 n0]|] eqn:S0; [|discriminate RN].
  cbn [option_map] in RN. unfold renp in RN. cbn [fst snd] in RN. injection RN as RN1 RN2. rewrite qmarks_app in *. assert (n0 = qmarks g) by lia. subst w. subst n0.
  exists (finish w0). split; [|rewrite EX, finish_ren; reflexivity]. apply (accepted_means _ _ _ _ TU).
  assert (DL : derives S_statement_list (Node 3 [s])) by (econstructor; [reflexivity|]; repeat (constructor; try eassumption)).
  destruct P as (_ & _ & _ & _ & NN). rewrite need_node in NN. cbn [need_all] in NN.
  destruct (@list_input (Node 3 [s]) b us DL) as (t' & b' & eof & P & SE).
  - rewrite respects_node. destruct (may_end_stop 3) as [_ ->]. cbn [respects_all]. change (first_of [] 0) with 0%N. rewrite A8, !andb_true_r, andb_true_l. unfold Prec.tail_ok. cbn [rev app]. apply forallb_forall. reflexivity.
  - rewrite need_node. cbn [need_all]. pose proof (need_pos s). lia.
  - rewrite EU. f_equal. cbn. now rewrite app_nil_r, A7.
  - exists t', b', eof. split; [exact P|]. rewrite SE, sem_node. cbn [sems]. rewrite S0. reflexivity.
Qed.
(** A statement that stands somewhere in an accepted script, but not first, can be put behind any accepted script: the statements and parameters of that script stay as they are, the added statement
    is the same up to the numbers of its parameters.  (A first statement may fill the whole parser stack, a later one leaves room for the two entries of the list and the semicolon before it.) *)
Theorem C63_join : forall sql1 a eof L1 n1 sql2 ts2 L2 n2 i before g stop after, tokens sql1 (a ++ [eof]) -> accepted_with sql1 L1 n1 -> (forall w k, a = w ++ [k] -> is_semi k = false) ->
  tokens sql2 ts2 -> accepted_with sql2 L2 n2 -> 0 < i < List.length L2 -> stretch ts2 i before g stop after ->
  forall text b, cores text (map core a ++ [(59%Z, TVNone)] ++ map core g ++ semicolon b ++ [(0%Z, TVNone)]) ->
  exists s, nth_error L2 i = Some (ren (Z.of_nat (qmarks before)) s) /\ accepted_with text (L1 ++ [ren (Z.of_nat n1) s]) (n1 + qmarks g).
Proof.
  intros sql1 a ef L1 n1 sql2 ts2 L2 n2 i bf g stop after T1 A1 LA T2 A2 LI ST text b (us & TU & EU).
  destruct (accepted_parts T2 A2) as (tl & sm & k & P & S & _ & PA). destruct (PA i (proj2 LI)) as (bf' & g' & stop' & after' & ST' & s & e & w & (rest & PT) & SS & EX).
  destruct (stretch_unique (tokens_eof T2) ST ST') as (<- & <- & <- & <-). clear ST' PA.
  destruct PT as [B1 B2 B3 B4 B5 B6 B7 B8 B9]. assert (E2 : e = 2) by (destruct B3 as [[-> _]|[_ B3]]; [cbn in B2; lia|exact B3]). subst e.
  pose proof (@sem_ren (qmarks bf) _ _ B6 0) as RN. rewrite Nat.add_0_l, SS in RN. destruct (sem s 0) as [[w0 n0]|] eqn:S0; [|discriminate RN].
  cbn [option_map] in RN. unfold renp in RN. cbn [fst snd] in RN. injection RN as RN1 RN2. rewrite qmarks_app in RN2. assert (n0 = qmarks g) by lia. subst w. subst n0. clear B1 B2 B3 B4 B5.
  exists (finish w0). split; [rewrite EX, finish_ren; reflexivity|].
  destruct P as (_ & _ & _ & _ & NN). rewrite need_node in NN. cbn [need_all] in NN.
  apply (accepted_means _ _ _ _ T1) in A1. destruct A1 as (t1 & sm1 & k1 & (D & Y & K & R & N1) & S1). apply app_inj_tail in Y as [Y _].
  inversion D as [|? ? ? ? PR DL EQ1 EQ2]. rewrite production_2 in PR. injection PR as <-. subst r lhs ts.  inversion DL as [|? ? ? ? D1 DL1]; subst X Xs t ts.  inversion DL1 as [|? ? ? ? D2 DL2]; subst X Xs t ts. clear DL DL1 DL2.
  assert (YA : yield t1 = a /\ first_of [sm1] 0 = 0%N).
  { cbn [yield flat_map] in Y. rewrite app_nil_r in Y. subst a. inversion D2 as [q H|r ? rhs vs PR DL X1 X2]; subst.
    - exfalso. pose proof (sym_small q) as L0. rewrite H in L0. vm_compute in L0. discriminate L0.
    - assert (RR : rhs = [] \/ rhs = [S_semi]).
      { assert (Z : forallb (fun p => if N.eqb (fst (snd p)) S_opt_semicolon then match snd (snd p) with [] => true | [X] => N.eqb X S_semi | _ => false end else true) grammar = true) by (vm_compute; reflexivity).
        rewrite forallb_forall in Z. apply production_In in PR. specialize (Z _ PR). cbn [fst snd] in Z. rewrite N.eqb_refl in Z. destruct rhs as [|X [|]]; try discriminate Z; [now left|right]. apply N.eqb_eq in Z. now subst X. }
      destruct RR as [->| ->].
      + inversion DL; subst. cbn [yield flat_map]. rewrite app_nil_r. split; reflexivity.
      + exfalso. inversion DL as [|? ? t ? DT DN]; subst. inversion DN; subst. destruct (derives_terminal DT) as (q & -> & SQ); [reflexivity|]. specialize (LA (yield t1) q eq_refl). rewrite (is_semi_sym _ SQ) in LA. discriminate LA. }
  destruct YA as [YA F1]. clear Y.
  rewrite respects_node in R. apply andb_prop in R as [_ R]. cbn [respects_all] in R. apply andb_prop in R as [R _]. rewrite F1 in R. rewrite need_node in N1. cbn [need_all] in N1.
  apply (accepted_means _ _ _ _ TU). set (semi := mk (59%Z, TVNone)).
  assert (DL : derives S_statement_list (Node 4 [t1; Leaf semi; s])) by (econstructor; [reflexivity|]; constructor; [exact D1|]; constructor; [apply (@d_leaf semi)|]; constructor; [exact B6|constructor]).
  destruct (@list_input (Node 4 [t1; Leaf semi; s]) b us DL) as (t' & b' & eof & P & SE).
  - rewrite respects_node. destruct (may_end_stop 4) as [_ ->]. cbn [respects_all]. change (first_of [] 0) with 0%N. change (first_of [Leaf semi; s] 0) with S_semi. rewrite respects_stop, R, B8. cbn [respects]. rewrite !andb_true_r, andb_true_l. unfold Prec.tail_ok. cbn [rev app]. apply forallb_forall. reflexivity.
  - rewrite need_node. cbn [need_all]. pose proof (need_pos s). assert (NL : need (Leaf semi) = 1) by reflexivity. lia.
  - rewrite EU. cbn [yield flat_map]. rewrite app_nil_r, !map_app, YA, B7. now rewrite <- !app_assoc.
  - exists t', b', eof. split; [exact P|]. rewrite SE, sem_node. cbn [sems]. rewrite S1. change (sem (Leaf semi) n1) with (Some (token_val semi, n1)). cbv iota beta.
    pose proof (@sem_ren n1 _ _ B6 0) as RN. rewrite Nat.add_0_l, S0 in RN. rewrite RN. cbn [option_map]. unfold renp. cbn [fst snd asem nth Nat.pred]. unfold snoc. cbn [elems]. rewrite finish_ren. unfold finish, vec. cbn [N.eqb Pos.eqb]. do 2 f_equal. lia.
Qed.
(** A sample: the second statement of the script is the one of the text alone with parameter number 1 instead of 0. *)
Definition stmts_of (sql : bytes) : list val := match parse [] sql fresh_env with PRet _ e => map erase (e_stmts e) | _ => [] end.
Definition script_sample : bytes := la "SELECT ? FROM t; DELETE FROM u WHERE a = ?; COMMIT;".
Definition alone_sample : bytes := la "DELETE FROM u WHERE a=?;".
Definition sample_tokens : list token := match lex_all [] script_sample with Some ts => ts | None => [] end.
Definition sample_before : list token := firstn 5 sample_tokens.
Definition sample_g : list token := firstn 7 (skipn 5 sample_tokens).
Example C63_example : tokens script_sample sample_tokens /\ accepted_with script_sample (stmts_of script_sample) 2 /\ List.length (stmts_of script_sample) = 3 /\
  (exists stop after, stretch sample_tokens 1 sample_before sample_g stop after) /\ cores alone_sample (map core sample_g ++ semicolon true ++ [(0%Z, TVNone)]) /\
  qmarks sample_before = 1 /\ qmarks sample_g = 1 /\ ren 1 (nth 0 (stmts_of alone_sample) VNull) = nth 1 (stmts_of script_sample) VNull /\ nth 0 (stmts_of alone_sample) VNull <> nth 1 (stmts_of script_sample) VNull.
Proof.
  split; [vm_compute; reflexivity|]. split; [|split; [vm_compute; reflexivity|split; [|split; [|split; [|split; [|split]]]]]].
  - apply evaluated. vm_compute. eexists. repeat split.
  - exists (nth 12 sample_tokens (mk (0%Z, TVNone))), (skipn 13 sample_tokens). constructor; [vm_compute; reflexivity|vm_compute; reflexivity| |vm_compute; reflexivity|left; vm_compute; reflexivity].
    right. exists (firstn 4 sample_tokens), (nth 4 sample_tokens (mk (0%Z, TVNone))). split; vm_compute; reflexivity.
  - exists (match lex_all [] alone_sample with Some ts => ts | None => [] end). split; vm_compute; reflexivity.
  - vm_compute. reflexivity.
  - vm_compute. reflexivity.
  - vm_compute. reflexivity.
  - vm_compute. discriminate.
Qed.
