(** The course of a parse up to some point depends only on the tokens read until then.  No code of /repo. *)
From Verif Require Export InvRun Verdict PrecSound Relabel Viable Frame.
From Coq Require Import ZifyBool ZifyNat ZifyN.
Local Open Scope nat_scope.
Set Implicit Arguments.
Unset Strict Implicit.

(** ** The machine of Abs.v, on related tokens *)
Section Sim.
Variable R : token -> token -> Prop.
Variable PT : tree -> tree -> Prop.
Hypothesis R_sym : forall a b, R a b -> sym_of a = sym_of b.
Hypothesis PT_leaf : forall a b, R a b -> PT (Leaf a) (Leaf b).
Hypothesis PT_node : forall r ts us, Forall2 PT ts us -> PT (Node r ts) (Node r us).
Definition ent_sim (x y : Z * tree) : Prop := fst x = fst y /\ PT (snd x) (snd y).
Definition look_sim (x y : option token) : Prop := match x, y with Some a, Some b => R a b | None, None => True | _, _ => False end.
Definition stk_sim (a b : astate) : Prop := Forall2 ent_sim (a_stk a) (a_stk b) /\ look_sim (a_look a) (a_look b).
Lemma sim_top l m : Forall2 ent_sim l m -> atop l = atop m.
Proof. intro H. destruct H as [|[s t] [s' t'] l m [E _] _]; [reflexivity|exact E]. Qed.
Lemma sim_tok x y : look_sim x y -> atok x = atok y.
Proof. destruct x, y; cbn [look_sim atok]; intro H; try contradiction; [|reflexivity]. now rewrite (R_sym H). Qed.
Lemma Forall2_firstn A C (Q : A -> C -> Prop) l m : Forall2 Q l m -> forall n, Forall2 Q (firstn n l) (firstn n m).
Proof. induction 1; intros [|n]; cbn [firstn]; auto. Qed.
Lemma Forall2_skipn A C (Q : A -> C -> Prop) l m : Forall2 Q l m -> forall n, Forall2 Q (skipn n l) (skipn n m).
Proof. induction 1; intros [|n]; cbn [skipn]; auto. Qed.
Lemma Forall2_snd l m : Forall2 ent_sim l m -> Forall2 PT (map snd l) (map snd m).
Proof. induction 1 as [|[s t] [s' t'] l m [_ E] _ IH]; cbn [map snd]; auto. Qed.
Lemma Forall2_rev A C (Q : A -> C -> Prop) l m : Forall2 Q l m -> Forall2 Q (rev l) (rev m).
Proof. induction 1; cbn [rev]; [constructor|]. apply Forall2_app; auto. Qed.
(** One step; [w], [w'] are the tokens still to be read in common. *)
Lemma sim_step a b a' w x y : stk_sim a b -> a_toks a = w ++ x -> ustep a = ACont a' ->
  (exists w0, a_toks a' = w0 ++ x /\ forall w', Forall2 R w w' -> a_toks b = w' ++ y -> exists b' w0', ustep b = ACont b' /\ stk_sim a' b' /\ Forall2 R w0 w0' /\ a_toks b' = w0' ++ y) \/
  (w = [] /\ exists t, x = t :: a_toks a').
Proof.
  intros [S L] T E. unfold ustep in *. rewrite <- (sim_top S), <- (sim_tok L). destruct (atop (a_stk a) =? YYFINAL)%Z; [discriminate|].
  destruct (decide (atop (a_stk a)) (atok (a_look a))) as [[|s'|r|]|] eqn:D; try discriminate E.
  - rewrite T in E. destruct w as [|t w]; cbn [app] in E.
    + destruct x as [|t x]; [discriminate|]. injection E as <-. right. split; [reflexivity|]. exists t. reflexivity.
    + injection E as <-. left. exists w. split; [reflexivity|]. intros w' F TB. inversion F as [|? t' ? w0' RT RW]; subst. rewrite TB. cbn [app].
      exists (mkA (a_stk b) (Some t') (w0' ++ y)), w0'. repeat split; auto.
  - destruct (a_look a) as [t|] eqn:LA; [|discriminate]. injection E as <-. left. exists w. split; [exact T|]. intros w' F TB. destruct (a_look b) as [t'|] eqn:LB; [|destruct L]. cbn [look_sim] in L.
    exists (mkA ((s', Leaf t') :: a_stk b) None (a_toks b)), w'. split; [reflexivity|]. split; [|auto]. split; [|exact I]. cbn [a_stk]. constructor; [|exact S]. split; [reflexivity|]. cbn [snd]. auto.
  - destruct (production (Z.to_N r)) as [[lhs rhs]|]; [|discriminate]. cbv zeta in *. rewrite <- (sim_top (Forall2_skipn S (List.length rhs))).
    destruct (goto_of (atop (skipn (List.length rhs) (a_stk a))) (Z.of_N lhs)) as [g|]; [|discriminate]. injection E as <-. left. exists w. split; [exact T|]. intros w' F TB. eexists _, w'. split; [reflexivity|].
    split; [|auto]. split; [|exact L]. cbn [a_stk]. constructor; [|apply Forall2_skipn; exact S]. split; [reflexivity|]. cbn [snd]. apply PT_node. rewrite !map_rev. apply Forall2_rev, Forall2_snd, Forall2_firstn. exact S.
Qed.
Lemma toks_step a b : ustep a = ACont b -> exists l, a_toks a = l ++ a_toks b.
Proof.
  unfold ustep. destruct (_ =? _)%Z; [discriminate|]. destruct (decide _ _) as [[|s'|r|]|]; try discriminate.
  - destruct (a_toks a) as [|t l]; [discriminate|]. intro E. injection E as <-. exists [t]. reflexivity.
  - destruct (a_look a); [|discriminate]. intro E. injection E as <-. exists []. reflexivity.
  - destruct (production _) as [[lhs rhs]|]; [|discriminate]. cbv zeta. destruct (goto_of _ _); [|discriminate]. intro E. injection E as <-. exists []. reflexivity.
Qed.
Lemma toks_runs m a b : runs m a b -> exists l, a_toks a = l ++ a_toks b.
Proof. induction 1 as [a|a b c _ E _ (l & IH)]; [exists []; reflexivity|]. destruct (toks_step E) as (l' & E'). exists (l' ++ l). now rewrite E', IH, app_assoc. Qed.
Lemma sim_runs m a a' : runs m a a' -> forall b w w' y, stk_sim a b -> a_toks a = w ++ a_toks a' -> Forall2 R w w' -> a_toks b = w' ++ y ->
  exists b', runs m b b' /\ stk_sim a' b' /\ a_toks b' = y.
Proof.
  induction 1 as [a|a a1 a' L E H IH]; intros b w w' y S T F TB.
  - assert (w = []) as -> by (apply (f_equal (@List.length _)) in T; rewrite app_length in T; destruct w; [reflexivity|cbn in T; lia]). inversion F; subst. exists b. split; [constructor|]. split; [exact S|exact TB].
  - destruct (sim_step y S T E) as [(w0 & T0 & B)|(-> & t & ET)].
    + destruct (B w' F TB) as (b1 & w0' & EB & S1 & F1 & T1). destruct (IH b1 w0 w0' y S1 T0 F1 T1) as (b' & X1 & X2 & X3). exists b'. split; [|auto]. eapply ru_step; [|exact EB|exact X1].
      unfold depth in *. destruct S as [S _]. pose proof (Forall2_len S). lia.
    + destruct (toks_runs H) as (l & EL). rewrite EL in ET. apply (f_equal (@List.length _)) in ET. cbn [List.length] in ET. rewrite app_length in ET. lia.
Qed.
Lemma sim_out a b : stk_sim a b -> ustep a = ASyntax -> ustep b = ASyntax.
Proof.
  intros [S L] E. unfold ustep in *. rewrite <- (sim_top S), <- (sim_tok L). destruct (_ =? _)%Z; [discriminate|]. destruct (decide _ _) as [[|s'|r|]|] eqn:D; try discriminate E; [..|reflexivity].
  - destruct (a_toks a); discriminate.
  - destruct (a_look a); discriminate.
  - destruct (production _) as [[lhs rhs]|]; [|discriminate]. cbv zeta in *. destruct (goto_of _ _); discriminate.
Qed.
End Sim.

(** Tokens of the same kind: no sentence begins like an input in which an error was found. *)
Definition same_kind (a b : token) : Prop := sym_of a = sym_of b.
Theorem no_sentence ts a T k rest : asteps (astart ts) a -> astep a = ASyntax -> derives S_input T -> respects T 0 = true -> sym_of k = 0%N ->
  map sym_of (yield T ++ [k]) <> map sym_of (yields (atrees a) ++ alook a) ++ rest.
Proof.
  intros H E D RS K EQ. assert (E' : ustep a = ASyntax) by (unfold astep in E; destruct (199 <=? _); [discriminate|exact E]).
  destruct (map_eq_app _ _ _ _ EQ) as (w' & y & EW & E1 & _).
  pose proof (asteps_runs H) as RU. pose proof (ainv_runs RU (ainv_start ts)) as [_ TX _]. unfold pend in TX. rewrite app_assoc in TX.
  assert (F : Forall2 same_kind (yields (atrees a) ++ alook a) w').
  { revert E1. generalize (yields (atrees a) ++ alook a) as l. clear. intros l. revert w'. induction l as [|x l IH]; intros [|z w'] E; try discriminate E; [constructor|]. injection E as E1 E2. constructor; [symmetry; exact E1|auto]. }
  destruct (@sim_runs same_kind (fun _ _ => True) (fun _ _ H => H) (fun _ _ _ => I) (fun _ _ _ _ => I) _ _ _ RU (astart (yield T ++ [k])) _ w' y (conj (Forall2_nil _) I) (eq_sym TX) F EW) as (b & RB & SB & _).
  assert (EB : ustep b = ASyntax) by (eapply sim_out; [|exact SB|exact E']; intros ? ? X; exact X). destruct (input_run D K RS) as (mid & c & R1 & _ & R2 & EC & _). pose proof (runs_trans R1 R2) as R3.
  assert (b = c) by (eapply runs_end; [exact RB|exact R3|rewrite EB; discriminate|rewrite EC; discriminate]). subst c. congruence.
Qed.

(** Tokens with equal code and value. *)
Lemma similars_Forall2 ts us : Forall2 similar ts us -> similars ts us.
Proof. induction 1; cbn [similars]; auto. Qed.
Lemma similars_sems ts us k : similars ts us -> sems ts k = sems us k.
Proof.
  revert us k. induction ts as [|t ts IH]; intros [|u us] k S; try (destruct S; fail); [reflexivity|]. destruct S as [S1 S2]. cbn [sems]. rewrite (similar_sem k S1). destruct (sem u k) as [[v k1]|]; [|reflexivity]. now rewrite (IH _ _ S2).
Qed.
Definition same_core (a b : token) : Prop := core a = core b.
Theorem core_run ts a seen' after' : asteps (astart ts) a -> map core seen' = map core (yields (atrees a) ++ alook a) ->
  exists b, asteps (astart (seen' ++ after')) b /\ stk_sim same_core similar a b /\ a_toks b = after' /\ yields (atrees b) ++ alook b = seen'.
Proof.
  intros H EQ. pose proof (asteps_runs H) as RU. pose proof (ainv_runs RU (ainv_start ts)) as [_ TX _]. unfold pend in TX. rewrite app_assoc in TX.
  assert (F : Forall2 same_core (yields (atrees a) ++ alook a) seen').
  { revert EQ. generalize (yields (atrees a) ++ alook a) as l. clear. intros l. revert seen'. induction l as [|x l IH]; intros [|z w'] E; try discriminate E; [constructor|]. cbn [map] in E. constructor; [unfold same_core; congruence|apply IH; congruence]. }
  destruct (@sim_runs same_core similar core_sym (fun _ _ H => H) (fun r _ _ X => conj eq_refl (similars_Forall2 X)) _ _ _ RU (astart (seen' ++ after')) _ seen' after' (conj (Forall2_nil _) I) (eq_sym TX) F eq_refl) as (b & RB & SB & TB).
  exists b. split; [apply (runs_asteps (m := 198)); [lia|exact RB]|]. split; [exact SB|]. split; [exact TB|]. pose proof (ainv_runs RB (ainv_start _)) as [_ TY _]. unfold pend in TY. rewrite TB, app_assoc in TY. exact (app_inv_tail _ _ _ TY).
Qed.

(** ** The real parser, on the same tokens *)
Definition with_toks (p : pstate) (l : list token) : pstate := mkP (p_stk p) (p_look p) l (p_env p).
Lemma finish_stop r m e : (exists r' e', finish r m e = Stop r' e') \/ exists u, finish r m e = Undef u.
Proof. unfold finish. destruct (m e); eauto. Qed.
Lemma step_toks p :
  match step p with
  | Cont p' => (p_toks p' = p_toks p /\ forall l, step (with_toks p l) = Cont (with_toks p' l)) \/ (exists t, p_toks p = t :: p_toks p' /\ forall l, step (with_toks p (t :: l)) = Cont (with_toks p' l))
  | Stop r e => forall l, step (with_toks p l) = Stop r e
  | Undef u => True
  end.
Proof.
  unfold step. cbn [with_toks p_stk p_look p_toks p_env]. destruct (p_stk p) as [|top stk]; [exact I|]. cbv zeta.
  destruct (_ <=? _); [match goal with |- context [finish ?r ?m ?e] => destruct (finish_stop r m e) as [(r' & e1 & ->)|(u & ->)]; [reflexivity|exact I] end|].
  destruct (_ =? _)%Z; [match goal with |- context [finish ?r ?m ?e] => destruct (finish_stop r m e) as [(r' & e1 & ->)|(u & ->)]; [reflexivity|exact I] end|].
  destruct (decide _ _) as [[|s'|r|]|]; [..|exact I].
  - destruct (p_toks p) as [|t q]; [exact I|]. destruct (read_token t (p_env p)) as [l e'|e'|u] eqn:RT; [|exact I..].
    right. exists t. split; [reflexivity|]. intro l0. rewrite RT. reflexivity.
  - destruct (p_look p) as [[c v]|]; [|exact I]. left. split; reflexivity.
  - destruct (get yyr2 r) as [n|]; [|exact I]. destruct (get yyr1 r) as [nt|]; [|exact I]. destruct (skipn (Z.to_nat n) (top :: stk)) as [|below stk']; [exact I|].
    destruct (act _ _ _) as [v e'|e'|u]; [|match goal with |- context [finish ?r ?m ?e] => destruct (finish_stop r m e) as [(r' & e1 & ->)|(u & ->)]; [reflexivity|exact I] end|exact I].
    destruct (goto_of _ _); [|exact I]. left. split; reflexivity.
  - match goal with |- context [finish ?r ?m ?e] => destruct (finish_stop r m e) as [(r' & e1 & ->)|(u & ->)]; [reflexivity|exact I] end.
Qed.
Lemma run_more n : forall m p, run n p <> PFuel -> n <= m -> run m p = run n p.
Proof.
  induction n as [|n IH]; intros [|m] p F L; [now destruct F|now destruct F|lia|]. cbn [run] in *. destruct (step p); auto. apply IH; [exact F|lia].
Qed.
Section Run.
Variables (ts0 : list token) (e0 : env) (B : N -> nat).
Hypothesis OK0 : Forall tok_ok ts0.
Hypothesis M0 : e_msg e0 = VNull.
Hypothesis P0 : e_params e0 = [].
(** In the third case of [why] the message is one of the semantic checks. *)
Definition why_said (a : astate) (r : Z) (e : env) : Prop := why a r e /\ ((exists a', astep a = ACont a') -> said e).
Lemma reports_abs p ents b trees lk lost a' : inv ts0 e0 B p ents b trees lk lost -> reports p -> astep (abs ents trees lk (p_toks p)) = ACont a' -> False.
Proof.
  intros I [L|(x & l & E & NF & D)] A; [rewrite (abs_exhausted I L) in A; discriminate|].
  destruct (le_lt_dec YYINITDEPTH (List.length (p_stk p))) as [L|L]; [rewrite (abs_exhausted I L) in A; discriminate|].
  rewrite (abs_step I E L NF) in A. cbv zeta in A. change (tok_of (p_look p)) with (match p_look p with Some (c, _) => yytranslate_of c | None => None end) in A. rewrite D in A. discriminate.
Qed.
Lemma run_prefix n r e : forall p ents b trees lk lost, inv ts0 e0 B p ents b trees lk lost -> said (p_env p) -> run n p = PRet r e ->
  exists a l, asteps (abs ents trees lk (p_toks p)) a /\ p_toks p = l ++ a_toks a /\ (r <> 0%Z -> why_said a r e) /\ forall x m, n <= m -> run m (with_toks p (l ++ x)) = PRet r e.
Proof.
  induction n as [|n IH]; intros p ents b trees lk lost I SD E; [discriminate|]. cbn [run] in *. pose proof (inv_step OK0 M0 P0 I) as G. pose proof (step_toks p) as T. pose proof (said_step SD) as SS.
  destruct (step p) as [p'|r1 e1|u]; cbn [good] in G; [|injection E as -> ->|discriminate].
  - destruct G as (ents' & b' & trees' & lk' & lost' & I' & AS). destruct (IH _ _ _ _ _ _ I' SS E) as (a & l & H & TL & W & X). destruct T as [[T1 T2]|(t & T1 & T2)].
    + exists a, l. split; [eapply as_step; eassumption|]. split; [congruence|]. split; [exact W|]. intros x [|m] L; [lia|]. cbn [run]. rewrite T2. apply X. lia.
    + exists a, (t :: l). split; [eapply as_step; eassumption|]. split; [rewrite T1, TL; reflexivity|]. split; [exact W|]. intros x [|m] L; [lia|]. cbn [run app]. rewrite T2. apply X. lia.
  - exists (abs ents trees lk (p_toks p)), []. split; [constructor|]. split; [reflexivity|]. split; [destruct G as [(-> & _)|(_ & _ & W)]; [intro F; now destruct F|intros _; split; [exact W|]; intros (a' & A); destruct SS as [SS|SS]; [exact SS|destruct (reports_abs I SS A)]]|].
    intros x [|m] L; [lia|]. cbn [run]. now rewrite T.
Qed.
Theorem yyparse_prefix r e : ends_eof ts0 -> heap e0 (fun x => cas x (e_stmts e0) + B x) -> yyparse ts0 e0 = PRet r e ->
  exists a seen, asteps (astart ts0) a /\ ts0 = seen ++ a_toks a /\ seen = yields (atrees a) ++ alook a /\ (r <> 0%Z -> why_said a r e) /\
    forall after, ends_eof (seen ++ after) -> yyparse (seen ++ after) e0 = PRet r e.
Proof.
  intros EE H E. unfold yyparse in *. destruct (@run_prefix (parse_fuel (List.length ts0)) r e (parse_init ts0 e0) [] bottom [] [] (fun _ => 0)) as (a & l & A & TL & W & X); [apply inv_init; assumption|left; exact M0|exact E|].
  change (abs [] [] [] (p_toks (parse_init ts0 e0))) with (astart ts0) in A. cbn [parse_init p_toks] in TL. exists a, l. split; [exact A|]. split; [exact TL|].
  pose proof (ainv_runs (asteps_runs A) (ainv_start ts0)) as [_ TX _]. unfold pend in TX. rewrite app_assoc in TX. split; [rewrite <- TX in TL; symmetry; exact (app_inv_tail _ _ _ TL)|]. split; [exact W|].
  intros after EA. assert (D : forall x, with_toks (parse_init ts0 e0) (l ++ x) = parse_init (l ++ x) e0) by reflexivity. rewrite D in X || setoid_rewrite D in X.
  specialize (X after (Nat.max (parse_fuel (List.length ts0)) (parse_fuel (List.length (l ++ after)))) ltac:(apply Nat.le_max_l)).
  assert (NF : run (parse_fuel (List.length (l ++ after))) (parse_init (l ++ after) e0) <> PFuel) by (now destruct (yyparse_terminates e0 EA)).
  rewrite <- X. symmetry. apply run_more; [exact NF|apply Nat.le_max_r].
Qed.
End Run.
