(** When the number in an interval literal overflows.  No code of /repo. *)
From Verif Require Export PropLit Prefix PropParse.
From Coq Require Import ZifyBool ZifyNat ZifyN.
Local Open Scope nat_scope.
Set Implicit Arguments.
Unset Strict Implicit.

(** ** The scan *)
Lemma digits_more ds : forall acc, (0 <= acc)%Z -> forallb is_digit ds = true -> (acc <= fold_left (fun n c => n * 10 + (bz c - 48)) ds acc)%Z.
Proof.
  induction ds as [|c ds IH]; intros acc A F; cbn [fold_left forallb] in *; [lia|]. apply andb_prop in F as [F1 F2]. unfold is_digit, in_range in F1.
  specialize (IH (acc * 10 + (bz c - 48))%Z ltac:(lia) F2). lia.
Qed.
Lemma digit_run s : exists ds r, s = ds ++ r /\ forallb is_digit ds = true /\ match r with c :: _ => is_digit c = false | [] => True end.
Proof.
  induction s as [|c s (ds & r & -> & F & S)]; [exists [], []; auto|]. destruct (is_digit c) eqn:D.
  - exists (c :: ds), r. cbn [app forallb]. rewrite D. auto.
  - exists [], (c :: ds ++ r). auto.
Qed.
Lemma huge_scan_d s : huge_number s -> exists z r, scan_d (List.length s) s = Some (z, r) /\ fits_int z = false.
Proof.
  assert (G : forall b sg ds r, sign_text sg -> forallb is_space b = true -> forallb is_digit ds = true -> (digits_val ds > (if bytes_eqb sg ["-"%char] then 2147483648 else 2147483647))%Z ->
    let s := b ++ sg ++ ds ++ r in exists z r', scan_d (List.length s) s = Some (z, r') /\ fits_int z = false).
  { intros b sg ds r SG FB FD V s0. destruct (digit_run r) as (ds2 & r2 & -> & F2 & S2).
    assert (V2 : (digits_val (ds ++ ds2) > (if bytes_eqb sg ["-"%char] then 2147483648 else 2147483647))%Z).
    { unfold digits_val in *. rewrite fold_left_app. pose proof (digits_more (digits_nonneg ds 0%Z ltac:(lia) FD) F2). lia. }
    assert (IT := @IntText (List.length s0) b sg (ds ++ ds2) FB SG). specialize (IT ltac:(rewrite forallb_app, FD, F2; reflexivity)).
    specialize (IT ltac:(intros E; rewrite E in V2; cbn in V2; destruct (bytes_eqb _ _) in V2; lia)). specialize (IT ltac:(unfold s0; rewrite !app_length; lia)).
    pose proof (scan_d_reads _ _ _ r2 IT S2) as SD. replace ((b ++ sg ++ ds ++ ds2) ++ r2) with s0 in SD by (unfold s0; rewrite <- !app_assoc; reflexivity).
    eexists _, r2. split; [exact SD|]. unfold fits_int, INT_MIN, INT_MAX. destruct (bytes_eqb _ _) in *; lia. }
  intros (b & sg & ds & r & [(-> & FB & FD & SG & V)|(b' & ds' & r' & -> & FB & FD & V)]).
  - apply G; [|exact FB|exact FD|]; destruct SG as [-> | ->]; [left|right; left| |]; try reflexivity; exact V.
  - apply (G b' ["-"%char]); [right; now right|exact FB|exact FD|exact V].
Qed.
Lemma huge_scan s : huge_number s <-> scan_interval1 s = SUB /\ scan_interval2 s = SUB.
Proof.
  split; [|intros [H _]; apply scan_SUB; now left]. intro H. destruct (huge_scan_d H) as (z & r & E & F). unfold scan_interval1, scan_interval2. rewrite E, F. auto.
Qed.

Lemma app_inv_length A (a b c d : list A) : a ++ b = c ++ d -> List.length a = List.length c -> a = c /\ b = d.
Proof. revert c. induction a as [|x a IH]; intros [|y c] E L; try discriminate L; [auto|]. cbn [app] in E. injection E as -> E. injection L as L. destruct (IH _ E L) as [-> ->]. auto. Qed.
(** ** Shifts of the machine of Abs.v *)
Lemma yields_step a b : ainv (yields (atrees a) ++ pend a) a -> astep a = ACont b ->
  yields (atrees b) = yields (atrees a) \/ exists s k, a_look a = Some k /\ decide (atop (a_stk a)) (Some (Z.of_N (sym_of k))) = Some (DShift s) /\ b = mkA ((s, Leaf k) :: a_stk a) None (a_toks a).
Proof.
  intros AI E. assert (U : ustep a = ACont b) by (unfold astep in E; destruct (199 <=? _); [discriminate|exact E]). pose proof (ainv_step AI U) as [_ TX _].
  unfold ustep in U. destruct (_ =? _)%Z; [discriminate|]. destruct (decide (atop (a_stk a)) (atok (a_look a))) as [[|s'|r|]|] eqn:D; try discriminate U.
  - destruct (a_toks a); [discriminate|]. injection U as <-. now left.
  - destruct (a_look a) as [k|] eqn:L; [|discriminate]. injection U as <-. right. exists s', k. auto.
  - left. assert (P : pend b = pend a). { destruct (production _) as [[lhs rhs]|]; [|discriminate]. cbv zeta in U. destruct (goto_of _ _); [|discriminate]. injection U as <-. reflexivity. }
    rewrite P in TX. exact (app_inv_tail _ _ _ TX).
Qed.
(** The step in which the [n]-th token is shifted. *)
Lemma crossing ts n a c : asteps a c -> ainv ts a -> List.length (yields (atrees a)) <= n < List.length (yields (atrees c)) ->
  exists b s k, asteps a b /\ a_look b = Some k /\ astep b = ACont (mkA ((s, Leaf k) :: a_stk b) None (a_toks b)) /\ decide (atop (a_stk b)) (Some (Z.of_N (sym_of k))) = Some (DShift s) /\ List.length (yields (atrees b)) = n /\ asteps (mkA ((s, Leaf k) :: a_stk b) None (a_toks b)) c.
Proof.
  induction 1 as [a|a b c E H IH]; intros AI L; [lia|]. pose proof AI as [_ TX _]. assert (AI0 := AI). rewrite <- TX in AI0.
  assert (AB : ainv ts b) by (eapply ainv_step; [exact AI|]; unfold astep in E; destruct (199 <=? _); [discriminate|exact E]).
  destruct (yields_step AI0 E) as [Y|(s & k & LK & D & ->)].
  - destruct (IH AB) as (x & s & k & X1 & X2); [rewrite Y; exact L|]. exists x, s, k. split; [eapply as_step; eassumption|exact X2].
  - destruct (Nat.eq_dec (List.length (yields (atrees a))) n) as [EN|NE]; [exists a, s, k; split; [constructor|auto]|].
    destruct (IH AB) as (x & s1 & k1 & X1 & X2).
    + destruct a as [stk lk toks]. cbn [a_stk a_toks]. rewrite atrees_cons, yields_app, app_length. unfold atrees in *. cbn in *. lia.
    + exists x, s1, k1. split; [eapply as_step; eassumption|exact X2].
Qed.
Lemma on_path b c : asteps b c -> astep c = AAccept -> atop (a_stk b) <> YYFINAL -> exists b1, astep b = ACont b1 /\ asteps b1 c /\ List.length (a_stk b) < 199.
Proof.
  intros H A N. inversion H as [|? b1 ? E H1]; subst.
  - exfalso. unfold astep in A. destruct (199 <=? _); [discriminate|]. replace (_ =? YYFINAL)%Z with false in A by lia.
    destruct (decide _ _) as [[|s'|r|]|]; try discriminate A; [destruct (a_toks c); discriminate A|destruct (a_look c); discriminate A|]. destruct (production _) as [[lhs rhs]|]; [|discriminate A]. cbv zeta in A. destruct (goto_of _ _); discriminate A.
  - exists b1. split; [exact E|]. split; [exact H1|]. unfold astep in E. destruct (Nat.leb_spec 199 (List.length (a_stk b))); [discriminate|assumption].
Qed.

(** ** The tables around INTERVAL *)
Definition nS (X : N) : option Z := Some (Z.of_N X).
Lemma shift_interval s s' : (0 <= s < 656)%Z -> decide s (nS S_INTERVAL) = Some (DShift s') -> s' = 124%Z.
Proof.
  intros R D. assert (A : forallb (fun s => match decide s (nS S_INTERVAL) with Some (DShift s') => (s' =? 124)%Z | _ => true end) all_states = true) by (vm_cast_no_check (eq_refl true)).
  assert (I : In s all_states) by (apply zrange_In; lia). pose proof (proj1 (forallb_forall _ _) A s I) as C. cbn beta in C. rewrite D in C. lia.
Qed.
Lemma d_124 : decide 124 None = Some DRead /\ decide 124 (nS S_STRING) = Some (DShift 203) /\ decide 203 None = Some DRead.
Proof. vm_compute. auto. Qed.
(** After INTERVAL and a string: a field name, which is made a datetime_field, or the end of the literal. *)
Definition after_string (X : N) : bool :=
  match decide 203 (nS X) with
  | Some (DReduce r) => (r =? 297)%Z
  | Some (DShift q) =>
    match decide q None with
    | Some (DReduce r) => match production (Z.to_N r) with Some (lhs, [Y]) => N.eqb lhs S_datetime_field && negb (q =? YYFINAL)%Z && (259 <=? r)%Z && (r <=? 264)%Z | _ => false end
    | _ => false
    end
  | _ => false
  end.
Lemma d_203 X : (X < 199)%N -> after_string X = true.
Proof.
  intro L. assert (A : forallb (fun z => after_string (Z.to_N z)) (zrange 199 0) = true) by (vm_cast_no_check (eq_refl true)).
  assert (I : In (Z.of_N X) (zrange 199 0)) by (apply zrange_In; lia). pose proof (proj1 (forallb_forall _ _) A _ I) as C. cbn beta in C. now rewrite N2Z.id in C.
Qed.
Lemma d_279 : goto_of 203 (Z.of_N S_datetime_field) = Some 279%Z /\ decide 279 None = Some (DReduce 296).
Proof. vm_compute. auto. Qed.
Lemma p_296 : production 296 = Some (S_interval_literal, [S_INTERVAL; S_STRING; S_datetime_field]) /\ production 297 = Some (S_interval_literal, [S_INTERVAL; S_STRING]).
Proof. vm_compute. auto. Qed.

(** ** The real parser at an overflow *)
Section Run.
Variables (ts0 : list token) (e0 : env) (B : N -> nat).
Hypothesis OK0 : Forall tok_ok ts0.
Hypothesis M0 : e_msg e0 = VNull.
Hypothesis P0 : e_params e0 = [].
(** The stack of [x] ends with INTERVAL and a string, and is about to be reduced to an interval literal. *)
Definition doomed (x : astate) : Prop :=
  exists r s t tl, decide (atop (a_stk x)) (atok (a_look x)) = Some (DReduce r) /\ List.length (a_stk x) < 199 /\ atop (a_stk x) <> YYFINAL /\ t_val t = TVStr s /\ huge_number s /\
    (r = 296%Z /\ (exists f i, atrees x = tl ++ [i; Leaf t; f]) \/ r = 297%Z /\ exists i, atrees x = tl ++ [i; Leaf t]).
Lemma doomed_undef p ents b trees lk lost : inv ts0 e0 B p ents b trees lk lost -> doomed (abs ents trees lk (p_toks p)) -> exists u, step p = Undef u.
Proof.
  intros I (r & s & t & tl & D & L & NF & TV & H & C). rewrite abs_trees in C by apply (Forall2_len (i_ents I)). rewrite abs_len in L by apply (Forall2_len (i_ents I)).
  pose proof (i_stk I) as ES0. assert (LS : List.length (p_stk p) < YYINITDEPTH) by (rewrite ES0, app_length, rev_length; cbn [List.length]; unfold YYINITDEPTH; lia).
  pose proof (step_cases (i_ctl I)) as SC. destruct (p_stk p) as [|x0 stk0] eqn:ES; [destruct (rev ents); discriminate ES0|]. rewrite (abs_top I ES) in *. cbn [abs a_look] in D. rewrite (proj1 (abs_look (i_look I))) in D.
  destruct (huge_scan s) as [HS _]. destruct (HS H) as [S1 S2]. clear HS.
  inversion SC as
    [HD E | x stk HD E1 E2 E | x stk t0 ts HD E1 E2 E3 E4 E5 E | x stk s' c v HD E1 E2 E3 E4 E5 E6 E
     | x stk r' lhs rhs popped below stk' g HD E1 E2 E3 E4 E5 E6 E7 E8 E9 E10 E11 E12 E13 E14 E | x stk HD E1 E2 E3 E4 E]; rewrite ?ES in *; try (injection E1 as <- <-).
  - cbn [List.length] in *. lia.
  - contradiction.
  - rewrite E3 in D. cbn [tok_of] in D. congruence.
  - rewrite E3 in D. cbn [tok_of] in D. congruence.
  - assert (r' = r) by congruence. subst r'. clear D.
    assert (SPL : rev ents ++ [b] = rev popped ++ below :: stk') by congruence. destruct (stack_split SPL) as (ents1 & -> & _).
    destruct (Forall2_app_inv_l _ _ (i_ents I)) as (trees1 & tp & F1 & F2 & ET). 
    assert (LN : List.length tp = List.length rhs) by (rewrite <- (Forall2_len F2), <- E8, map_length; reflexivity).
    assert (T2 : nth_error tp 1 = Some (Leaf t)).
    { destruct C as [[-> (f & i & EQ)]|[-> (i & EQ)]]; [change (Z.to_N 296) with 296%N in E4; rewrite (proj1 p_296) in E4|change (Z.to_N 297) with 297%N in E4; rewrite (proj2 p_296) in E4]; injection E4 as <- <-; cbn [List.length] in LN; rewrite ET in EQ.
      - destruct tp as [|a1 [|a2 [|a3 [|]]]]; try discriminate LN. apply (f_equal (@rev _)) in EQ. rewrite !rev_app_distr in EQ. cbn [rev app] in EQ. injection EQ as -> -> -> _. reflexivity.
      - destruct tp as [|a1 [|a2 [|]]]; try discriminate LN. apply (f_equal (@rev _)) in EQ. rewrite !rev_app_distr in EQ. cbn [rev app] in EQ. injection EQ as -> -> _. reflexivity. }
    assert (V2 : exists a, nth_error (map s_val popped) 1 = Some (VStr a s)).
    { destruct F2 as [|y1 t1 popped tp _ F2]; [discriminate|]. destruct F2 as [|y2 t2 popped tp EN F2]; [discriminate|]. cbn [nth_error map] in *. injection T2 as ->.
      pose proof (en_leaf EN eq_refl) as EL. unfold token_val in EL. rewrite TV in EL. destruct (s_val y2) eqn:SV; try discriminate EL. injection EL as ->. eauto. }
    destruct V2 as (a & V2). destruct (map s_val popped) as [|v1 [|v2 vs]]; try discriminate V2. cbn [nth_error] in V2. injection V2 as ->.
    assert (A : exists u, act (Z.to_N r) (v1 :: VStr a s :: vs) (set_loc (default_loc popped below) (p_env p)) = RUB u).
    { generalize (set_loc (default_loc popped below) (p_env p)). intro e1. destruct C as [[-> _]|[-> _]]; [change (Z.to_N 296) with 296%N|change (Z.to_N 297) with 297%N]; cbn [act nth Nat.pred]; unfold bind at 1; cbn [cstr]; unfold bind, check, ret, fail; destruct (memN a (e_live e1)); rewrite ?S1, ?S2; eauto. }
    destruct A as (u & A). rewrite A. eauto.
  - congruence.
Qed.
Lemma run_doomed n x : forall p ents b trees lk lost, inv ts0 e0 B p ents b trees lk lost -> asteps (abs ents trees lk (p_toks p)) x -> doomed x -> sems (atrees x) 0 <> None ->
  run n p <> PFuel -> exists u, run n p = PUB u.
Proof.
  induction n as [|n IH]; intros p ents b trees lk lost I H D S NF; [now destruct NF|]. cbn [run] in *. inversion H as [a EA|a a1 x' E H1]; subst.
  - destruct (doomed_undef I D) as (u & ->). eauto.
  - pose proof (inv_step OK0 M0 P0 I) as G. destruct (step p) as [p'|r e|u]; cbn [good] in G; [| |eauto].
    + destruct G as (ents' & b' & trees' & lk' & lost' & I' & AS). rewrite E in AS. injection AS as ->. eapply IH; eassumption.
    + exfalso. destruct G as [(_ & G & _)|(_ & _ & [(_ & G & _)|[(_ & G & _)|(_ & a' & G & N)]])]; try congruence. rewrite E in G. injection G as <-. apply S. eapply asteps_sems; eassumption.
Qed.
Theorem yyparse_doomed x : ends_eof ts0 -> heap e0 (fun x => cas x (e_stmts e0) + B x) -> asteps (astart ts0) x -> doomed x -> sems (atrees x) 0 <> None -> yyparse ts0 e0 = PUB UScanf.
Proof.
  intros EE H A D S. destruct (@run_doomed (parse_fuel (List.length ts0)) x (parse_init ts0 e0) [] bottom [] [] (fun _ => 0)) as (u & E); [apply inv_init; assumption|exact A|exact D|exact S|now destruct (yyparse_terminates e0 EE)|].
  change (yyparse ts0 e0 = PUB u) in E. pose proof (yyparse_inv OK0 M0 P0 EE H) as O. rewrite E in *. destruct O as [-> _]. reflexivity.
Qed.
End Run.

(** ** Reaching it *)
Lemma field_total r k l : (259 <= r <= 264)%Z -> asem (Z.to_N r) k l <> None.
Proof. intro R. assert (r = 259 \/ r = 260 \/ r = 261 \/ r = 262 \/ r = 263 \/ r = 264)%Z as [-> |[-> |[-> |[-> |[-> | ->]]]]] by lia; discriminate. Qed.
Lemma astep_read stk s t ts : List.length stk < 199 -> atop stk = s -> s <> YYFINAL -> decide s None = Some DRead -> astep (mkA stk None (t :: ts)) = ACont (mkA stk (Some t) ts).
Proof. intros L <- F D. rewrite astep_ustep by exact L. unfold ustep. cbn [a_stk a_look a_toks atok]. replace (_ =? _)%Z with false by lia. now rewrite D. Qed.
Lemma astep_shift stk s s' t ts : List.length stk < 199 -> atop stk = s -> s <> YYFINAL -> decide s (nS (sym_of t)) = Some (DShift s') -> astep (mkA stk (Some t) ts) = ACont (mkA ((s', Leaf t) :: stk) None ts).
Proof. intros L <- F D. rewrite astep_ustep by exact L. unfold ustep. cbn [a_stk a_look a_toks atok]. replace (_ =? _)%Z with false by lia. unfold nS in D. now rewrite D. Qed.
Lemma astep_unit stk s s' t lk ts r lhs Y g : List.length stk < 198 -> s' <> YYFINAL -> decide s' (atok lk) = Some (DReduce r) -> production (Z.to_N r) = Some (lhs, [Y]) -> atop stk = s -> goto_of s (Z.of_N lhs) = Some g ->
  astep (mkA ((s', t) :: stk) lk ts) = ACont (mkA ((g, Node (Z.to_N r) [t]) :: stk) lk ts).
Proof.
  intros L F D P T G. rewrite astep_ustep by (cbn [a_stk List.length]; lia). unfold ustep. cbn [a_stk a_look a_toks atop]. replace (_ =? _)%Z with false by lia. rewrite D, P. cbv zeta. cbn [List.length skipn firstn rev map app snd].
  now rewrite T, G.
Qed.
(** The steps after INTERVAL, on any stack that leaves enough room. *)
Definition room (n : nat) (X : N) : Prop := n + 1 < 199 /\ forall q, decide 203 (nS X) = Some (DShift q) -> n + 2 < 199.
Lemma doomed_steps i stk0 t n ts s : let stk := (124%Z, Leaf i) :: stk0 in room (List.length stk) (sym_of n) -> sym_of t = S_STRING -> t_val t = TVStr s -> huge_number s ->
  sems (rev (map snd stk)) 0 <> None -> exists x, asteps (mkA stk None (t :: n :: ts)) x /\ doomed x /\ sems (atrees x) 0 <> None.
Proof.
  intros stk [R1 R2] ST TV H S. destruct d_124 as (D1 & D2 & D3).
  assert (A1 : asteps (mkA stk None (t :: n :: ts)) (mkA ((203%Z, Leaf t) :: stk) (Some n) ts)).
  { eapply as_step; [apply (@astep_read stk 124); [lia|reflexivity|discriminate|exact D1]|]. eapply as_step; [apply (@astep_shift stk 124 203); [lia|reflexivity|discriminate|rewrite ST; exact D2]|].
    apply asteps_one, (@astep_read _ 203); [cbn [List.length]; lia|reflexivity|discriminate|exact D3]. }
  assert (S1 : sems (rev (map snd stk) ++ [Leaf t]) 0 <> None).
  { rewrite sems_app. destruct (sems (rev (map snd stk)) 0) as [[vs j]|]; [cbn; discriminate|now destruct S]. }
  assert (TR : rev (map snd stk) = rev (map snd stk0) ++ [Leaf i]) by reflexivity.
  pose proof (d_203 (sym_small n)) as AS. unfold after_string in AS. destruct (decide 203 (nS (sym_of n))) as [[|q|r|]|] eqn:D; try discriminate AS.
  - specialize (R2 q eq_refl). destruct (decide q None) as [[| |r|]|] eqn:DQ; try discriminate AS. destruct (production (Z.to_N r)) as [[lhs [|Y []]]|] eqn:P; try discriminate AS.
    repeat (apply andb_prop in AS as [AS ?]). apply N.eqb_eq in AS. subst lhs. assert (QF : q <> YYFINAL) by (apply Z.eqb_neq, negb_true_iff; assumption).
    exists (mkA ((279%Z, Node (Z.to_N r) [Leaf n]) :: (203%Z, Leaf t) :: stk) None ts). split; [|split].
    + eapply asteps_trans; [exact A1|]. eapply as_step; [apply (@astep_shift _ 203 q); [cbn [List.length]; lia|reflexivity|discriminate|exact D]|].
      apply asteps_one. eapply astep_unit; [cbn [List.length] in *; lia|exact QF|exact DQ|exact P|reflexivity|exact (proj1 d_279)].
    + exists 296%Z, s, t, (rev (map snd stk0)). cbn [a_stk a_look atop atok]. split; [exact (proj2 d_279)|]. split; [cbn [List.length] in *; lia|]. split; [discriminate|]. split; [exact TV|]. split; [exact H|]. left. split; [reflexivity|].
      eexists _, _. rewrite !atrees_cons. unfold atrees. cbn [a_stk]. rewrite TR, <- !app_assoc. reflexivity.
    + rewrite !atrees_cons. unfold atrees. cbn [a_stk]. rewrite sems_app. destruct (sems (rev (map snd stk) ++ [Leaf t]) 0) as [[vs j]|]; [|now destruct S1].
      cbn [sems]. rewrite sem_node. cbn [sems]. cbn [sem]. pose proof (@field_total r j [token_val n] ltac:(lia)) as FT. destruct (asem _ _ _); [discriminate|now destruct FT].
  - exists (mkA ((203%Z, Leaf t) :: stk) (Some n) ts). split; [exact A1|]. split.
    + exists r, s, t, (rev (map snd stk0)). cbn [a_stk a_look atop atok]. split; [exact D|]. split; [cbn [List.length] in *; lia|]. split; [discriminate|]. split; [exact TV|]. split; [exact H|]. right. split; [lia|].
      eexists. rewrite atrees_cons. unfold atrees. cbn [a_stk]. rewrite TR, <- !app_assoc. reflexivity.
    + rewrite atrees_cons. exact S1.
Qed.
(** The other text is accepted, so there was room. *)
Lemma room_there i stk0 t n ts c : let stk := (124%Z, Leaf i) :: stk0 in asteps (mkA stk None (t :: n :: ts)) c -> astep c = AAccept -> sym_of t = S_STRING -> room (List.length stk) (sym_of n).
Proof.
  intros stk H A ST. destruct d_124 as (D1 & D2 & D3).
  destruct (on_path H A) as (b1 & E1 & H1 & L1); [discriminate|]. rewrite (@astep_read stk 124) in E1; [|exact L1|reflexivity|discriminate|exact D1]. injection E1 as <-.
  destruct (on_path H1 A) as (b2 & E2 & H2 & L2); [discriminate|]. rewrite (@astep_shift stk 124 203) in E2; [|exact L2|reflexivity|discriminate|rewrite ST; exact D2]. injection E2 as <-.
  destruct (on_path H2 A) as (b3 & E3 & H3 & L3); [discriminate|]. rewrite (@astep_read _ 203) in E3; [|exact L3|reflexivity|discriminate|exact D3]. injection E3 as <-.
  cbn [a_stk List.length] in *. split; [lia|]. intros q D.
  destruct (on_path H3 A) as (b4 & E4 & H4 & L4); [discriminate|]. rewrite (@astep_shift _ 203 q) in E4; [|exact L4|reflexivity|discriminate|exact D]. injection E4 as <-.
  destruct (on_path H4 A) as (b5 & E5 & H5 & L5); [|cbn [a_stk List.length] in L5; lia]. cbn [a_stk atop].
  pose proof (d_203 (sym_small n)) as AS. unfold after_string in AS. rewrite D in AS. destruct (decide q None) as [[| |r|]|]; try discriminate AS. destruct (production (Z.to_N r)) as [[lhs [|Y []]]|]; try discriminate AS.
  repeat (apply andb_prop in AS as [AS ?]). apply Z.eqb_neq, negb_true_iff. assumption.
Qed.
Theorem dooms before k t n after before' k' t' n' after' s c : asteps (astart (before' ++ k' :: t' :: n' :: after')) c -> astep c = AAccept -> sems (atrees c) 0 <> None ->
  List.length before' < List.length (yields (atrees c)) -> map core (before ++ [k]) = map core (before' ++ [k']) -> sym_of k' = S_INTERVAL -> sym_of t' = S_STRING -> sym_of t = S_STRING -> sym_of n = sym_of n' ->
  t_val t = TVStr s -> huge_number s -> exists x, asteps (astart (before ++ k :: t :: n :: after)) x /\ doomed x /\ sems (atrees x) 0 <> None.
Proof.
  intros H A SC LY EC SK ST' ST SN TV HU. destruct (crossing H (ainv_start _) (n := List.length before')) as (b & s1 & k1 & B1 & LK & BS & D & LB & B2); [cbn; lia|].
  pose proof (ainv_runs (asteps_runs B1) (ainv_start _)) as [AC AT _]. unfold pend, alook in AT. rewrite LK in AT. cbn [app] in AT.
  destruct (app_inv_length AT LB) as [YB EQ]. injection EQ as -> TB. 
  assert (RG : (0 <= atop (a_stk b) < 656)%Z). { pose proof (chain_path AC) as HP. destruct (a_stk b) as [|[s2 t2] l]; [cbn; lia|]. exact (path_cons HP). }
  rewrite SK in D. pose proof (shift_interval RG D) as ->. clear D RG AC. rewrite TB in *.
  set (b' := mkA ((124%Z, Leaf k') :: a_stk b) None (t' :: n' :: after')) in *.
  assert (HB : asteps (astart (before' ++ k' :: t' :: n' :: after')) b') by (eapply asteps_trans; [exact B1|now apply asteps_one]).
  assert (YB' : yields (atrees b') ++ alook b' = before' ++ [k']).
  { cbn [alook b' a_look]. rewrite app_nil_r. unfold b'. rewrite atrees_cons, yields_app. rewrite <- YB. destruct b as [stk lk toks]. unfold atrees. cbn [a_stk]. reflexivity. }
  destruct (@core_run _ b' (before ++ [k]) (t :: n :: after) HB) as (x & HX & [SX LX] & TX & _); [rewrite YB'; exact EC|].
  rewrite <- app_assoc in HX. cbn [app] in HX. destruct x as [stkx lkx toksx]. cbn [a_stk a_look a_toks b'] in *. subst toksx. destruct lkx; [destruct LX|].
  inversion SX as [|? [s2 t2] ? stk2 [E1 E2] S2]; subst. cbn [fst snd] in E1, E2. subst s2. destruct t2 as [i|r2 ts2]; [|destruct E2].
  pose proof (room_there B2 A ST') as RM. rewrite <- SN in RM. assert (LS : List.length (a_stk b) = List.length stk2) by exact (Forall2_len S2).
  destruct (@doomed_steps i stk2 t n after s) as (x & X1 & X2 & X3); [cbn [List.length] in *; rewrite <- LS; exact RM|exact ST|exact TV|exact HU| |exists x; split; [eapply asteps_trans; eassumption|auto]].
  assert (Z : sems (atrees b') 0 = sems (rev (map snd ((124%Z, Leaf i) :: stk2))) 0).
  { apply similars_sems, similars_Forall2. unfold atrees. apply Forall2_rev. exact (Forall2_snd SX). }
  rewrite <- Z. intro N. apply SC. eapply asteps_sems; eassumption.
Qed.
