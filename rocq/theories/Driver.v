(** Control flow of the driver: from every reachable configuration, one round does one of six things, and the tables are
    never used out of bounds.  Termination bound. *)
From Verif Require Import Base BisonTables TokenCodes GrammarDef LexModel Ast Heap Actions ParseModel Grammar ParserCert
  TableCheck.
From Coq Require Import ZifyBool ZifyNat ZifyN.
Open Scope Z_scope.
Set Implicit Arguments.
Unset Strict Implicit.

(** ** Consequences of the table check *)
Lemma state_ok_all s : 0 <= s < 656 -> s <> YYFINAL -> state_ok s = true.
Proof.
  intros H HF. pose proof all_states_ok as A. rewrite forallb_forall in A. apply A, filter_In. split.
  - apply zrange_In. lia.
  - apply negb_true_iff, Z.eqb_neq. exact HF.
Qed.
Lemma weight_tok t : 0 <= t < 199 -> weight (Z.to_N t) <= 15.
Proof.
  intro H. assert (A : forallb (fun t => weight (Z.to_N t) <=? 15) all_tokens = true) by (vm_compute; reflexivity).
  rewrite forallb_forall in A. specialize (A t). apply Z.leb_le, A, zrange_In. lia.
Qed.
Lemma weight_low X : -1 <= weight X.
Proof.
  assert (A : forallb (fun i => -1 <=? weight (Z.to_N i)) (zrange 335 0) = true) by (vm_compute; reflexivity).
  rewrite forallb_forall in A. destruct (N.ltb X 335) eqn:E.
  - apply N.ltb_lt in E. specialize (A (Z.of_N X)). rewrite N2Z.id in A. apply Z.leb_le, A, zrange_In. lia.
  - apply N.ltb_ge in E. unfold weight.
    assert (B : tget weight_trie (tidx (Z.of_N X)) = None); [|rewrite B; lia].
    assert (C : forall p, (335 < p)%positive -> tget weight_trie p = None).
    { intros p Hp. do 10 (try (destruct p as [p|p|]; try lia; try (vm_compute; reflexivity))). }
    apply C. unfold tidx. destruct (Z.of_N X) eqn:Q; lia.
Qed.
Lemma stos_final s : 0 <= s < 656 -> stos s = 0%N -> s = 0 \/ s = YYFINAL.
Proof.
  intros H E.
  assert (A : forallb (fun s => negb (N.eqb (stos s) 0) || (s =? 0) || (s =? YYFINAL)) all_states = true)
    by (vm_compute; reflexivity).
  rewrite forallb_forall in A. specialize (A s). rewrite E, N.eqb_refl in A. cbn [negb orb] in A.
  assert (I : In s all_states) by (apply zrange_In; lia). specialize (A I).
  apply orb_prop in A as [A|A]; apply Z.eqb_eq in A; auto.
Qed.
Lemma stos_YYFINAL : stos YYFINAL = 0%N. Proof. reflexivity. Qed.
Lemma preds_range s b : In b (preds s) -> 0 <= b < 656.
Proof.
  intro H.
  assert (A : forallb (forallb (fun b => (0 <=? b) && (b <? 656))) preds_list = true) by (vm_compute; reflexivity).
  assert (G : forall l p t, (forall q x, tget t q = Some x -> forallb (fun b => (0 <=? b) && (b <? 656)) x = true) ->
     forallb (forallb (fun b => (0 <=? b) && (b <? 656))) l = true ->
     forall q x, tget (tof l p t) q = Some x -> forallb (fun b => (0 <=? b) && (b <? 656)) x = true).
  { induction l as [|y l IH]; intros p t HT HL; cbn [tof]; [exact HT|].
    cbn [forallb] in HL. apply andb_prop in HL as [HY HL]. apply IH; [|exact HL].
    clear -HT HY. revert t HT. induction p as [p IHp|p IHp|]; intros t HT q x; destruct t as [|l v r]; cbn [tset];
      destruct q as [q|q|]; cbn [tget]; intro HG; try discriminate HG;
      try (now injection HG as <-);
      try (eapply (HT (xI q)); cbn; eassumption); try (eapply (HT (xO q)); cbn; eassumption);
      try (eapply (HT xH); cbn; eassumption);
      try (eapply (IHp TNil); [|eassumption]; intros q' x' D; destruct q'; discriminate D);
      try (eapply IHp; [|eassumption]; intros q' x' D; first [eapply (HT (xI q')); cbn; eassumption | eapply (HT (xO q')); cbn; eassumption]). }
  unfold preds in H. destruct (tget preds_trie (tidx s)) as [l|] eqn:E; [|destruct H].
  assert (T : preds_trie = tof preds_list 1 TNil) by (vm_compute; reflexivity).
  rewrite T in E. apply G in E; [|intros q x D; destruct q; discriminate D | exact A].
  rewrite forallb_forall in E. apply E in H. lia.
Qed.
Lemma preds_nonempty s b : In b (preds s) -> 0 <= s < 656.
Proof.
  intro H. unfold preds in H. destruct (tget preds_trie (tidx s)) as [l|] eqn:E; [|destruct H].
  assert (C : forall p, (656 < p)%positive -> tget preds_trie p = None).
  { intros p Hp. do 11 (try (destruct p as [p|p|]; try lia; try (vm_compute; reflexivity))). }
  assert (N0 : tget preds_trie xH = Some []) by reflexivity.
  destruct s as [|p|p]; cbn [tidx] in E.
  - lia.
  - destruct (Pos.ltb 656 (Pos.succ p)) eqn:Q.
    + apply Pos.ltb_lt in Q. rewrite C in E by exact Q. discriminate.
    + apply Pos.ltb_ge in Q. lia.
  - rewrite N0 in E. injection E as <-. destruct H.
Qed.

(** ** Reachable configurations *)
(** The remaining tokens end with the end-of-input token. *)
Inductive ends_eof : list token -> Prop :=
| ee_one : forall t, t_code t <= 0 -> ends_eof [t]
| ee_cons : forall t ts, 0 < t_code t -> ends_eof ts -> ends_eof (t :: ts).

Definition states (stk : list entry) : list Z := map s_state stk.
(** Invariant: the states form a path; the lookahead and the remaining tokens are consistent. *)
Record ctl (p : pstate) : Prop := {
  ctl_path : path (states (p_stk p));
  ctl_toks : match p_stk p with
             | x :: _ => s_state x <> YYFINAL ->
               match p_look p with
               | None => ends_eof (p_toks p)
               | Some (c, _) => (c = 0 /\ p_toks p = []) \/ (0 < c /\ ends_eof (p_toks p))
               end
             | [] => False
             end }.

Definition tok_of (l : option (Z * val)) : option Z :=
  match l with Some (c, _) => yytranslate_of c | None => None end.

(** The possible outcomes of a round. *)
Inductive step_case (p : pstate) : out -> Prop :=
| sc_exhausted :
    (YYINITDEPTH <= List.length (p_stk p))%nat ->
    step_case p (finish 2 (yyerror_at (fl (e_lpos (p_env p))) (fc (e_lpos (p_env p))) err_exhausted ;;
                           drop_look (p_look p) ;; pop_all (p_stk p)) (p_env p))
| sc_accept : forall x stk,
    (List.length (p_stk p) < YYINITDEPTH)%nat ->
    p_stk p = x :: stk -> s_state x = YYFINAL ->
    step_case p (finish 0 (drop_look (p_look p) ;; pop_all (p_stk p)) (p_env p))
| sc_read : forall x stk t ts,
    (List.length (p_stk p) < YYINITDEPTH)%nat ->
    p_stk p = x :: stk -> s_state x <> YYFINAL ->
    p_look p = None -> p_toks p = t :: ts ->
    decide (s_state x) None = Some DRead ->
    step_case p (match read_token t (p_env p) with
                 | ROk l e' => Cont (mkP (p_stk p) (Some l) ts e')
                 | RErr _ => Undef UTable
                 | RUB u => Undef u
                 end)
| sc_shift : forall x stk s' c v,
    (List.length (p_stk p) < YYINITDEPTH)%nat ->
    p_stk p = x :: stk -> s_state x <> YYFINAL ->
    p_look p = Some (c, v) ->
    decide (s_state x) (yytranslate_of c) = Some (DShift s') ->
    stos s' = sym_of_code c ->
    ctl (mkP (mkEnt s' v (loc_of (e_lpos (p_env p))) :: p_stk p) None (p_toks p) (p_env p)) ->
    step_case p (Cont (mkP (mkEnt s' v (loc_of (e_lpos (p_env p))) :: p_stk p) None (p_toks p) (p_env p)))
| sc_reduce : forall x stk r lhs rhs popped below stk' g,
    (List.length (p_stk p) < YYINITDEPTH)%nat ->
    p_stk p = x :: stk -> s_state x <> YYFINAL ->
    decide (s_state x) (tok_of (p_look p)) = Some (DReduce r) ->
    production (Z.to_N r) = Some (lhs, rhs) -> 2 <= r ->
    weight lhs + 1 <= sum_weight rhs ->
    p_stk p = rev popped ++ below :: stk' ->
    map (fun y => stos (s_state y)) popped = rhs ->
    goto_of (s_state below) (Z.of_N lhs) = Some g -> stos g = lhs ->
    path (states (below :: stk')) -> path (g :: states (below :: stk')) -> g <> YYFINAL -> s_state below <> YYFINAL ->
    step_case p (match act (Z.to_N r) (map s_val popped) (set_loc (default_loc popped below) (p_env p)) with
                 | ROk v e' => Cont (mkP (mkEnt g v (default_loc popped below) :: below :: stk') (p_look p) (p_toks p) e')
                 | RErr e' => finish 1 (pop_error (below :: stk') ;; drop_look (p_look p)) e'
                 | RUB u => Undef u
                 end)
| sc_error : forall x stk,
    (List.length (p_stk p) < YYINITDEPTH)%nat ->
    p_stk p = x :: stk -> s_state x <> YYFINAL ->
    p_look p <> None ->
    decide (s_state x) (tok_of (p_look p)) = Some DError ->
    step_case p (finish 1 (yyerror_at (fl (e_lpos (p_env p))) (fc (e_lpos (p_env p)))
                                      (syntax_message (s_state x) (tok_of (p_look p))) ;;
                           pop_error (p_stk p) ;; drop_look (p_look p)) (p_env p)).

Lemma yytranslate_range c : 0 <= c -> exists t, yytranslate_of c = Some t /\ 0 <= t < 199 /\ (t = 0 -> c = 0) /\
   Z.to_N t = sym_of_code c.
Proof.
  intro H. unfold sym_of_code. unfold yytranslate_of.
  destruct ((0 <=? c) && (c <=? YYMAXUTOK)) eqn:E.
  - assert (A : forallb (fun c => match get yytranslate c with
                                   | Some t => (0 <=? t) && (t <? 199) && (negb (t =? 0) || (c =? 0)) | None => false end)
                        (zrange 437 0) = true) by (vm_compute; reflexivity).
    rewrite forallb_forall in A. specialize (A c). unfold YYMAXUTOK in E.
    assert (I : In c (zrange 437 0)) by (apply zrange_In; lia). specialize (A I).
    destruct (get yytranslate c) as [t|] eqn:G; [|discriminate]. exists t. repeat split; try lia.
    destruct (c <=? 0) eqn:Q; [|reflexivity]. assert (c = 0) by lia. subst c. vm_compute in G. now injection G as <-.
  - exists 2. repeat split; try lia. destruct (c <=? 0) eqn:Q; [|reflexivity]. unfold YYMAXUTOK in E. lia.
Qed.

Lemma path_cons s l : path (s :: l) -> 0 <= s < 656.
Proof. inversion 1; subst; [lia | eapply preds_nonempty; eassumption]. Qed.
Lemma path_app a l : path (a ++ l) -> l <> [] -> path l.
Proof.
  induction a as [|s a IH]; cbn; [auto|]. intros H HN. apply IH; [|exact HN].
  inversion H as [E|? b l' ? ? ? E]; subst; [|assumption].
  destruct a; [|discriminate]. cbn in *. congruence.
Qed.
(** YYFINAL can only be on top. *)
Lemma preds_not_final s b : In b (preds s) -> b <> YYFINAL.
Proof.
  intros H ->.
  assert (A : forallb (fun s => negb (memZ YYFINAL (preds s))) all_states = true) by (vm_compute; reflexivity).
  rewrite forallb_forall in A. pose proof (preds_nonempty H) as R. specialize (A s).
  assert (I : In s all_states) by (apply zrange_In; lia). specialize (A I).
  apply memZ_In in H. rewrite H in A. discriminate.
Qed.

Lemma rule_ok_inv r : rule_ok r = true -> exists lhs rhs, production (Z.to_N r) = Some (lhs, rhs) /\
  get yyr1 r = Some (Z.of_N lhs) /\ get yyr2 r = Some (Z.of_nat (List.length rhs)) /\ 2 <= r /\
  weight lhs + 1 <= sum_weight rhs.
Proof.
  unfold rule_ok. destruct (production _) as [[lhs rhs]|]; [|discriminate].
  destruct (get yyr1 r) as [l|]; [|discriminate]. destruct (get yyr2 r) as [n|]; [|discriminate].
  intro H. apply andb_prop in H as [H HW]. apply andb_prop in H as [H H2]. apply andb_prop in H as [HL HN].
  exists lhs, rhs. repeat split; try lia.
  - f_equal. lia.
  - f_equal. lia.
Qed.

Lemma sym_small lhs r rhs : production r = Some (lhs, rhs) -> (199 <= lhs < 335)%N.
Proof.
  intro H. assert (A : forallb (fun p => N.leb 199 (fst (snd p)) && N.ltb (fst (snd p)) 335) grammar = true)
    by (vm_compute; reflexivity).
  unfold production in H. destruct (find _ grammar) as [q|] eqn:E; [|discriminate]. injection H as H.
  apply find_some in E as [I _]. rewrite forallb_forall in A. apply A in I. rewrite H in I. cbn in I. lia.
Qed.

Lemma reduce_facts s r : reduce_ok s r = true -> forall stk, path (s :: stk) ->
  exists lhs rhs b stk' g, production (Z.to_N r) = Some (lhs, rhs) /\
    get yyr1 r = Some (Z.of_N lhs) /\ get yyr2 r = Some (Z.of_nat (List.length rhs)) /\ 2 <= r /\
    weight lhs + 1 <= sum_weight rhs /\
    skipn (List.length rhs) (s :: stk) = b :: stk' /\ map stos (firstn (List.length rhs) (s :: stk)) = rev rhs /\
    goto_of b (Z.of_N lhs) = Some g /\ stos g = lhs /\ path (b :: stk') /\ path (g :: b :: stk').
Proof.
  unfold reduce_ok. intros H stk HP. apply andb_prop in H as [HR H].
  destruct (rule_ok_inv HR) as (lhs & rhs & P & R1 & R2 & R3 & R4). rewrite P in H.
  destruct (back (rev rhs) [s]) as [SS|] eqn:B; [|discriminate].
  destruct (back_path B HP) as (b & stk' & E1 & E2 & E3 & E4); [now left|].
  rewrite rev_length in E1, E4. rewrite forallb_forall in H. specialize (H b E2).
  destruct (goto_of b (Z.of_N lhs)) as [g|] eqn:G; [|discriminate].
  apply andb_prop in H as [H H0]. apply andb_prop in H as [HM HS].
  exists lhs, rhs, b, stk', g. repeat split; auto.
  - now apply N.eqb_eq.
  - constructor; [now apply memZ_In | lia | exact E3].
Qed.

Lemma step_cases p : ctl p -> step_case p (step p).
Proof.
  intros [HP HT]. unfold step. destruct (p_stk p) as [|x stk] eqn:ES; [destruct HT|].
  destruct (YYINITDEPTH <=? List.length (x :: stk))%nat eqn:ED.
  { apply Nat.leb_le in ED. rewrite <- ES in *. apply sc_exhausted. exact ED. }
  apply Nat.leb_gt in ED. rewrite <- ES in ED.
  destruct (s_state x =? YYFINAL) eqn:EF.
  { apply Z.eqb_eq in EF. rewrite <- ES. eapply sc_accept; eassumption. }
  apply Z.eqb_neq in EF. specialize (HT EF). cbn [states map] in HP.
  pose proof (path_cons HP) as R. pose proof (state_ok_all R EF) as OK. unfold state_ok in OK.
  apply andb_prop in OK as [OK _]. apply andb_prop in OK as [OK _]. apply andb_prop in OK as [OK _].
  apply andb_prop in OK as [OK ON]. apply andb_prop in OK as [OR OD].
  rewrite forallb_forall in OR. rewrite forallb_forall in OD.
  fold (tok_of (p_look p)).
  assert (CASE : exists d, decide (s_state x) (tok_of (p_look p)) = Some d /\
    match d with
    | DRead => p_look p = None
    | DShift s' => exists c v t, p_look p = Some (c, v) /\ yytranslate_of c = Some t /\
                     shift_ok (s_state x) t s' = true /\ Z.to_N t = sym_of_code c /\ (t = 0 -> c = 0)
    | DReduce r => In r (reduces_of (s_state x))
    | DError => p_look p <> None
    end).
  { destruct (p_look p) as [[c v]|] eqn:EL; cbn [tok_of].
    - assert (H0 : 0 <= c) by (destruct HT as [[-> _]|[H _]]; lia).
      destruct (yytranslate_range H0) as (t & ET & RT & Z0 & SY). rewrite ET.
      specialize (OD (t, decide (s_state x) (Some t))).
      assert (I : In (t, decide (s_state x) (Some t)) (decisions (s_state x))).
      { unfold decisions. apply in_map_iff. exists t. split; [reflexivity|apply zrange_In; lia]. }
      specialize (OD I). unfold decision_ok in OD. cbn [fst snd] in OD.
      destruct (decide (s_state x) (Some t)) as [[|s'|r|]|]; try discriminate.
      + exists (DShift s'). split; [reflexivity|]. exists c, v, t. auto.
      + exists (DReduce r). split; [reflexivity|]. now apply memZ_In.
      + exists DError. split; [reflexivity|congruence].
    - destruct (decide (s_state x) None) as [[|s'|r|]|]; try discriminate.
      + exists DRead. auto.
      + exists (DReduce r). split; [reflexivity|]. now apply memZ_In. }
  destruct CASE as (d & ED' & HD). rewrite ED'. destruct d as [|s'|r|].
  - (* read *)
    rewrite HD in HT. destruct (p_toks p) as [|t ts] eqn:EQ; [inversion HT|].
    rewrite <- ES. eapply sc_read; try eassumption. rewrite HD in ED'. exact ED'.
  - (* shift *)
    destruct HD as (c & v & t & EL & ET & SO & SY & Z0). rewrite EL in *.
    unfold shift_ok in SO. apply andb_prop in SO as [SO S0]. apply andb_prop in SO as [SM SS].
    apply memZ_In in SM. apply N.eqb_eq in SS. apply negb_true_iff, Z.eqb_neq in S0.
    rewrite <- ES. cbn [tok_of] in ED'. eapply sc_shift; try eassumption; [congruence|].
    constructor; cbn [p_stk p_look p_toks].
    + rewrite ES. cbn [states map s_state]. constructor; assumption.
    + intro NF. destruct HT as [[-> _]|[_ HT]]; [|exact HT].
      exfalso. cbn in SY. rewrite SY in SS. apply stos_final in SS; [|eapply preds_nonempty; exact SM].
      destruct SS; cbn in NF; contradiction.
  - (* reduce *)
    specialize (OR r HD). destruct (reduce_facts OR HP) as
      (lhs & rhs & b & stk' & g & P & R1 & R2 & R3 & R4 & E1 & E2 & G & SG & PB & PG).
    rewrite R1, R2, Nat2Z.id.
    change (s_state x :: map s_state stk) with (map s_state (x :: stk)) in E1, E2.
    rewrite skipn_map in E1. rewrite firstn_map in E2.
    destruct (skipn (List.length rhs) (x :: stk)) as [|below stk''] eqn:EK; [discriminate|].
    cbn [map] in E1. injection E1 as <- <-. rewrite G.
    eapply sc_reduce with (rhs := rhs); try eassumption.
    + rewrite rev_involutive, <- EK, ES. symmetry. apply firstn_skipn.
    + rewrite map_rev. apply (f_equal (@rev N)) in E2. rewrite rev_involutive, map_map in E2. exact E2.
    + intros ->. pose proof (sym_small P) as LS. rewrite <- SG, stos_YYFINAL in LS. lia.
    + inversion PG as [|? ? ? IB _ _]; subst. eapply preds_not_final. exact IB.
  - (* error *)
    rewrite <- ES. eapply sc_error; eassumption.
Qed.

(** The invariant is preserved. *)
Lemma read_token_look t e l e' : read_token t e = ROk l e' -> fst l = (if t_code t <=? 0 then 0 else t_code t).
Proof.
  unfold read_token, bind, token_value, ret, snew, alloc. destruct (t_val t); cbn; intro H; now injection H as <- _.
Qed.
Lemma finish_not_cont r m e p : finish r m e <> Cont p.
Proof. unfold finish. destruct (m e); discriminate. Qed.
Lemma path_states_nonempty stk : path (states stk) -> exists x l, stk = x :: l.
Proof. destruct stk as [|x l]; [inversion 1|eauto]. Qed.
Lemma ctl_step p p' : ctl p -> step p = Cont p' -> ctl p'.
Proof.
  intros HC HS. pose proof (step_cases HC) as SC. rewrite HS in SC.
  destruct HC as [HP HT]. inversion SC as
    [HD E | x stk HD E1 E2 E | x stk t ts HD E1 E2 E3 E4 E5 E | x stk s' c v HD E1 E2 E3 E4 E5 E6 E
     | x stk r lhs rhs popped below stk' g HD E1 E2 E3 E4 E5 E6 E7 E8 E9 E10 E11 E12 E13 E14 E | x stk HD E1 E2 E3 E4 E].
  - now apply finish_not_cont in E.
  - now apply finish_not_cont in E.
  - destruct (read_token t (p_env p)) as [l e'|e'|u] eqn:RT; try discriminate. injection E as <-.
    apply read_token_look in RT. destruct l as [c v]. cbn [fst] in RT.
    constructor; cbn [p_stk p_look p_toks]; [exact HP|]. rewrite E1 in *. intros _. specialize (HT E2). rewrite E3, E4 in HT.
    inversion HT as [t0 HT0 | t0 ts0 HT0 HT1]; subst; [left|right].
    + destruct (t_code t <=? 0) eqn:Q; [|lia]. auto.
    + destruct (t_code t <=? 0) eqn:Q; [lia|]. auto.
  - exact E6.
  - destruct (act _ _ _) as [v e'|e'|u] eqn:EA.
    + injection E as <-. constructor; cbn [p_stk p_look p_toks]; [exact E12|]. intros _. rewrite E1 in HT. now apply HT.
    + now apply finish_not_cont in E.
    + discriminate.
  - now apply finish_not_cont in E.
Qed.

Lemma ctl_init ts e : ends_eof ts -> ctl (parse_init ts e).
Proof. intro H. constructor; cbn; [constructor | intros _; exact H]. Qed.

(** ** Termination *)
Definition stack_weight (stk : list entry) : Z := sum_weight (map (fun x => stos (s_state x)) stk).
Definition measure (p : pstate) : Z :=
  17 * Z.of_nat (List.length (p_toks p)) + (match p_look p with Some _ => 16 | None => 0 end) + stack_weight (p_stk p).
Lemma sum_weight_app a b : sum_weight (a ++ b) = sum_weight a + sum_weight b.
Proof.
  induction a as [|x a IH]; [reflexivity|]. cbn [app].
  change (weight x + sum_weight (a ++ b) = weight x + sum_weight a + sum_weight b). lia.
Qed.
Lemma sum_weight_rev a : sum_weight (rev a) = sum_weight a.
Proof. induction a as [|x a IH]; [reflexivity|]. cbn [rev]. rewrite sum_weight_app, IH.
  change (sum_weight a + (weight x + 0) = weight x + sum_weight a). lia. Qed.
Lemma sum_weight_low a : - Z.of_nat (List.length a) <= sum_weight a.
Proof.
  induction a as [|x a IH]; cbn [List.length]; [cbn; lia|]. change (sum_weight (x :: a)) with (weight x + sum_weight a).
  pose proof (@weight_low x). lia.
Qed.
Lemma step_measure p p' : ctl p -> step p = Cont p' ->
  measure p' + 1 <= measure p /\ (List.length (p_stk p) < YYINITDEPTH)%nat.
Proof.
  intros HC HS. pose proof (step_cases HC) as SC. rewrite HS in SC. unfold measure.
  inversion SC as
    [HD E | x stk HD E1 E2 E | x stk t ts HD E1 E2 E3 E4 E5 E | x stk s' c v HD E1 E2 E3 E4 E5 E6 E
     | x stk r lhs rhs popped below stk' g HD E1 E2 E3 E4 E5 E6 E7 E8 E9 E10 E11 E12 E13 E14 E | x stk HD E1 E2 E3 E4 E].
  - now apply finish_not_cont in E.
  - now apply finish_not_cont in E.
  - destruct (read_token t (p_env p)) as [l e'|e'|u] eqn:RT; try discriminate. injection E as <-.
    cbn [p_toks p_look p_stk]. rewrite E3, E4. cbn [List.length]. split; [lia|exact HD].
  - cbn [p_toks p_look p_stk] in *. rewrite E3. unfold stack_weight. cbn [map s_state].
    change (sum_weight (stos s' :: ?l)) with (weight (stos s') + sum_weight l).
    cut (weight (stos s') <= 15); [intro W; split; [lia|exact HD]|].
    rewrite E5. destruct HC as [_ HT]. rewrite E1 in HT. specialize (HT E2). rewrite E3 in HT.
    assert (H0 : 0 <= c) by (destruct HT as [[-> _]|[H _]]; lia).
    destruct (yytranslate_range H0) as (t & _ & RT & _ & SY). rewrite <- SY. apply weight_tok. lia.
  - destruct (act _ _ _) as [v e'|e'|u] eqn:EA; [|now apply finish_not_cont in E|discriminate].
    injection E as <-. cbn [p_toks p_look p_stk]. rewrite E7. unfold stack_weight.
    rewrite map_app, sum_weight_app, map_rev, sum_weight_rev, E8. cbn [map s_state].
    change (sum_weight (stos g :: ?l)) with (weight (stos g) + sum_weight l). rewrite E10. split; [lia|].
    rewrite <- E7. exact HD.
  - now apply finish_not_cont in E.
Qed.

(** Number of rounds of a run. *)
Fixpoint rounds (fuel : nat) (p : pstate) : nat :=
  match fuel with O => O | S f => match step p with Cont p' => S (rounds f p') | _ => 1%nat end end.
Lemma measure_low p : (List.length (p_stk p) <= YYINITDEPTH)%nat -> - 200 <= measure p.
Proof.
  intro H. unfold measure, stack_weight. pose proof (@sum_weight_low (map (fun x => stos (s_state x)) (p_stk p))) as L.
  rewrite map_length in L. unfold YYINITDEPTH in H. destruct (p_look p); lia.
Qed.
Lemma step_depth p p' : ctl p -> step p = Cont p' -> (List.length (p_stk p') <= YYINITDEPTH)%nat.
Proof.
  intros HC HS. pose proof (step_cases HC) as SC. rewrite HS in SC.
  inversion SC as
    [HD E | x stk HD E1 E2 E | x stk t ts HD E1 E2 E3 E4 E5 E | x stk s' c v HD E1 E2 E3 E4 E5 E6 E
     | x stk r lhs rhs popped below stk' g HD E1 E2 E3 E4 E5 E6 E7 E8 E9 E10 E11 E12 E13 E14 E | x stk HD E1 E2 E3 E4 E].
  - now apply finish_not_cont in E.
  - now apply finish_not_cont in E.
  - destruct (read_token t (p_env p)); try discriminate. injection E as <-. cbn [p_stk]. lia.
  - cbn [p_stk]. cbn [List.length]. lia.
  - destruct (act _ _ _); [|now apply finish_not_cont in E|discriminate]. injection E as <-. cbn [p_stk].
    rewrite E7, app_length in HD. cbn [List.length] in *. lia.
  - now apply finish_not_cont in E.
Qed.
Lemma run_rounds fuel : forall p, ctl p -> (List.length (p_stk p) <= YYINITDEPTH)%nat ->
  measure p + 200 < Z.of_nat fuel ->
  run fuel p <> PFuel /\ Z.of_nat (rounds fuel p) <= measure p + 201.
Proof.
  induction fuel as [|f IH]; intros p HC HL HM.
  - pose proof (measure_low HL). lia.
  - pose proof (measure_low HL). cbn [run rounds]. destruct (step p) as [p'|r e|u] eqn:ES.
    + destruct (step_measure HC ES) as [M1 M2]. pose proof (ctl_step HC ES) as HC'.
      pose proof (step_depth HC ES) as HD'. destruct (IH p' HC' HD') as [A B]; [lia|]. split; [exact A|].
      rewrite Nat2Z.inj_succ. lia.
    + split; [discriminate|lia].
    + split; [discriminate|lia].
Qed.
Lemma yyparse_terminates ts e : ends_eof ts -> yyparse ts e <> PFuel /\
  Z.of_nat (rounds (parse_fuel (List.length ts)) (parse_init ts e)) <= 17 * Z.of_nat (List.length ts) + 216.
Proof.
  intro H. pose proof (ctl_init e H) as HC.
  assert (M : measure (parse_init ts e) = 17 * Z.of_nat (List.length ts) + 15).
  { unfold measure, parse_init, stack_weight. cbn [p_toks p_look p_stk map]. vm_compute (sum_weight _). lia. }
  destruct (@run_rounds (parse_fuel (List.length ts)) (parse_init ts e) HC) as [A B].
  - cbn. unfold YYINITDEPTH. lia.
  - rewrite M. unfold parse_fuel. lia.
  - split; [exact A|]. lia.
Qed.
