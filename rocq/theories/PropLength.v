(** Property C19: what stringLength means.

    Vocabulary.  [tokens sql ts]: the tokens of the input, the last one being the end of input.  [stringLength s] (Length.v): the member of that name of the
    statement object [s] ([None] if it was not assigned).  [total_len w] (LexPos.v): the bytes scanned until the last token of [w] was returned, when the scanner
    returned the tokens [w] first; C39_positions (PropParse.v) proves that this is where the text of that token ends.  [covers p before text] (LexPos.v): the position
    [p] describes the piece [text] standing behind [before].  [sum]: sum of a list.  [size]: number of bytes.  [sym_of t]: the grammar symbol of a token. *)
From Verif Require Import Length PropParse.
From Coq Require Import ZifyBool ZifyNat ZifyN.
Local Open Scope nat_scope.

(** ** Specification *)
Definition is_semi (t : token) : bool := N.eqb (sym_of t) S_semi.
Definition semis (w : list token) : nat := List.length (filter is_semi w).
(** [g] is the stretch of tokens between the [i]-th semicolon and the next one (or the end of input), [stop] the token behind it. *)
Record stretch (ts : list token) (i : nat) (before g : list token) (stop : token) (after : list token) : Prop := {
  st_all : ts = before ++ g ++ stop :: after;
  st_before : semis before = i;
  st_start : before = [] \/ exists w k, before = w ++ [k] /\ is_semi k = true;
  st_inside : semis g = 0;
  st_stop : is_semi stop = true \/ sym_of stop = 0%N }.
(** The offsets between which the slice of statement [i] lies. *)
Definition slice_from (ns : list Z) (i : nat) : Z := sum (firstn i ns).
Definition slice_to (ns : list Z) (i : nat) : Z := sum (firstn (S i) ns).
(** The text of token [t] lies between [lo] and [hi]. *)
Definition text_within (sql : bytes) (t : token) (lo hi : Z) : Prop :=
  exists before text after, c_string sql = before ++ text ++ after /\ covers (t_pos t) before text /\ (lo <= size before)%Z /\ (size (before ++ text) <= hi)%Z.

(** ** The grammar: where semicolons are *)
Definition semi_rules : list N := [1; 2; 3; 4; 354; 355]%N.
Lemma semi_rhs r lhs rhs : production r = Some (lhs, rhs) -> memN r semi_rules = false -> forallb (fun X => negb (memN X [S_semi; S_statement_list; S_input; S_opt_semicolon; 199]%N)) rhs = true.
Proof.
  assert (A : forallb (fun p => if memN (fst p) semi_rules then true else forallb (fun X => negb (memN X [S_semi; S_statement_list; S_input; S_opt_semicolon; 199]%N)) (snd (snd p))) grammar = true) by (vm_compute; reflexivity).
  rewrite forallb_forall in A. intros P M. apply production_In in P. specialize (A _ P). cbn [fst snd] in A. rewrite M in A. exact A.
Qed.
Lemma semi_lhs r lhs rhs : production r = Some (lhs, rhs) -> memN lhs [S_semi; S_statement_list; S_input; S_opt_semicolon; 199]%N = false -> memN r semi_rules = false.
Proof.
  assert (A : forallb (fun p => if memN (fst p) semi_rules then memN (fst (snd p)) [S_semi; S_statement_list; S_input; S_opt_semicolon; 199]%N else true) grammar = true) by (vm_compute; reflexivity).
  rewrite forallb_forall in A. intros P M. apply production_In in P. specialize (A _ P). cbn [fst snd] in A. rewrite M in A. now destruct (memN r semi_rules).
Qed.
Lemma semis_app a b : semis (a ++ b) = semis a + semis b.
Proof. unfold semis. rewrite filter_app, app_length. reflexivity. Qed.
Scheme derives_m := Minimality for derives Sort Prop with derives_list_m := Minimality for derives_list Sort Prop.
Combined Scheme derives_both from derives_m, derives_list_m.
Lemma no_semi_all : (forall X t, derives X t -> memN X [S_semi; S_statement_list; S_input; S_opt_semicolon; 199]%N = false -> semis (yield t) = 0) /\
  (forall Xs ts, derives_list Xs ts -> forallb (fun X => negb (memN X [S_semi; S_statement_list; S_input; S_opt_semicolon; 199]%N)) Xs = true -> semis (yields ts) = 0).
Proof.
  apply derives_both.
  - intros t M. cbn [yield]. unfold semis, is_semi. cbn [filter]. destruct (N.eqb_spec (sym_of t) S_semi) as [E|_]; [|reflexivity]. rewrite E in M. discriminate M.
  - intros r X rhs ts P _ IH M. change (yield (Node r ts)) with (yields ts). apply IH. eapply semi_rhs; [exact P|]. eapply semi_lhs; [exact P|exact M].
  - reflexivity.
  - intros X Xs t ts _ IH1 _ IH2 M. cbn [forallb] in M. apply andb_prop in M as [M1 M2]. change (yields (t :: ts)) with (yield t ++ yields ts). rewrite semis_app, (IH2 M2), IH1; [reflexivity|]. now destruct (memN X _).
Qed.

Lemma is_semi_sym k : sym_of k = S_semi -> is_semi k = true. Proof. unfold is_semi. intros ->. reflexivity. Qed.
Fixpoint tree_size (t : tree) : nat := match t with Node _ (t1 :: _) => S (tree_size t1) | _ => 1 end.
(** The ends of the statements of a list are the ends of the stretches. *)
Lemma cuts_stretches tl : derives S_statement_list tl -> (exists w, yield tl = w) /\ List.length (cuts tl) = S (semis (yield tl)) /\ nth_error (cuts tl) (semis (yield tl)) = Some (yield tl) /\
  forall i c, nth_error (cuts tl) i = Some c -> exists before g rest, c = before ++ g /\ yield tl = c ++ rest /\ semis before = i /\ semis g = 0 /\
    (before = [] /\ i = 0 \/ exists w k j, before = w ++ [k] /\ is_semi k = true /\ i = S j /\ nth_error (cuts tl) j = Some w) /\
    (rest = [] /\ S i = List.length (cuts tl) \/ (exists k r, rest = k :: r /\ is_semi k = true) /\ S i < List.length (cuts tl)).
Proof.
  intro D. assert (G : forall n t, derives S_statement_list t -> tree_size t <= n -> List.length (cuts t) = S (semis (yield t)) /\ nth_error (cuts t) (semis (yield t)) = Some (yield t) /\
  forall i c, nth_error (cuts t) i = Some c -> exists before g rest, c = before ++ g /\ yield t = c ++ rest /\ semis before = i /\ semis g = 0 /\
    (before = [] /\ i = 0 \/ exists w k j, before = w ++ [k] /\ is_semi k = true /\ i = S j /\ nth_error (cuts t) j = Some w) /\
    (rest = [] /\ S i = List.length (cuts t) \/ (exists k r, rest = k :: r /\ is_semi k = true) /\ S i < List.length (cuts t))); [|split; [eauto|exact (G _ tl D (le_n _))]].
  induction n as [|n IH]; intros t DT L; [destruct t as [|? [|]]; cbn in L; lia|]. destruct (list_root DT) as (r & us & -> & RR). inversion DT as [|? ? rhs ? P DL]; subst.
  destruct (N.eqb_spec r 3) as [->|_]; [|destruct (N.eqb_spec r 4) as [->|_]; [|discriminate RR]]; clear RR.
  - assert (PR : production 3 = Some (S_statement_list, [S_statement])) by reflexivity. rewrite PR in P. injection P as <-.
    inversion DL as [|? ? s0 ? DS DN]; subst. inversion DN; subst. pose proof (proj1 no_semi_all _ _ DS eq_refl) as NS. cbn [cuts N.eqb Pos.eqb]. change (yield (Node 3 [s0])) with (yield s0 ++ []). rewrite app_nil_r, NS. split; [reflexivity|]. split; [reflexivity|].
    intros [|i] c E; [|destruct i; discriminate E]. cbn [nth_error] in E. injection E as <-. exists [], (yield s0), []. rewrite app_nil_r. cbn [app]. repeat split; auto.
  - assert (PR : production 4 = Some (S_statement_list, [S_statement_list; S_semi; S_statement])) by reflexivity. rewrite PR in P. injection P as <-.
    inversion DL as [|? ? t1 ? D1 DN]; subst. inversion DN as [|? ? t2 ? D2 DN2]; subst. inversion DN2 as [|? ? t3 ? D3 DN3]; subst. inversion DN3; subst. clear DN DN2 DN3.
    destruct (derives_terminal D2) as (k & -> & SK); [reflexivity|]. pose proof (proj1 no_semi_all _ _ D3 eq_refl) as NS.
    destruct (IH t1 D1) as (L1 & LL & F1); [cbn in L; lia|].
    assert (Y : yield (Node 4 [t1; Leaf k; t3]) = yield t1 ++ [k] ++ yield t3) by (cbn; now rewrite app_nil_r).
    assert (CU : cuts (Node 4 [t1; Leaf k; t3]) = cuts t1 ++ [yield (Node 4 [t1; Leaf k; t3])]) by reflexivity. rewrite CU. rewrite Y.
    assert (SM : semis (yield t1 ++ [k] ++ yield t3) = S (semis (yield t1))) by (rewrite !semis_app, NS; unfold semis at 2; cbn [filter]; rewrite (is_semi_sym _ SK); cbn [List.length]; lia).
    rewrite SM, app_length, L1. cbn [List.length]. split; [lia|]. split; [rewrite nth_error_app2 by lia; rewrite L1, Nat.sub_diag; reflexivity|].
    intros i c E. destruct (le_lt_dec (S (semis (yield t1))) i) as [G|G].
    + rewrite nth_error_app2 in E by lia. rewrite L1 in E. destruct (i - S (semis (yield t1))) as [|d] eqn:DI; [|destruct d; discriminate E]. cbn [nth_error] in E. injection E as <-. assert (i = S (semis (yield t1))) by lia. subst i.
      exists (yield t1 ++ [k]), (yield t3), []. rewrite app_nil_r. split; [now rewrite <- app_assoc|]. split; [reflexivity|]. split; [rewrite semis_app; unfold semis at 2; cbn [filter]; rewrite (is_semi_sym _ SK); cbn [List.length]; lia|].
      split; [exact NS|]. split; [|left; split; [reflexivity|lia]]. right. exists (yield t1), k, (semis (yield t1)). rewrite nth_error_app1 by lia. repeat split; auto. exact (is_semi_sym _ SK).
    + rewrite nth_error_app1 in E by lia. destruct (F1 i c E) as (bf & g & rest & X1 & X2 & X3 & X4 & X5 & X6). exists bf, g, (rest ++ [k] ++ yield t3). split; [exact X1|]. split; [now rewrite X2, <- !app_assoc|]. split; [exact X3|]. split; [exact X4|]. split.
      * destruct X5 as [X5|(w & k' & j & Y1 & Y2 & Y3 & Y4)]; [now left|right]. exists w, k', j. repeat split; auto. rewrite nth_error_app1; [exact Y4|]. apply nth_error_Some. congruence.
      * right. split; [|lia]. destruct X6 as [[-> _]|[(k' & q & -> & SQ) _]]; [exists k, (yield t3); split; [reflexivity|exact (is_semi_sym _ SK)]|eexists _, _; split; [reflexivity|exact SQ]].
Qed.

(** ** The scanner: the text of a token comes after the end of the previous one *)
Section Behind.
Local Open Scope Z_scope.
Fixpoint behind (whole : bytes) (len0 : Z) (ts : list token) : Prop :=
  match ts with
  | [] => True
  | t :: ts' => 0 <= t_len t /\ len0 + t_len t <= size whole /\
    (0 < t_code t -> exists before text after, whole = before ++ text ++ after /\ covers (t_pos t) before text /\ size (before ++ text) = len0 + t_len t /\ len0 <= size before) /\ behind whole (len0 + t_len t) ts'
  end.
Lemma lex_from_behind whole : forall st rest, is_start (lx_start st) -> ~ In NUL rest ->
  forall pre len0 ts, whole = pre ++ rest -> at_pos (lx_pos st) pre -> len0 <= size pre -> lex_from st len0 rest = Some ts -> behind whole len0 ts.
Proof.
  intros st rest S0 N0. refine (@lex_ind (fun st rest => forall pre len0 ts, whole = pre ++ rest -> at_pos (lx_pos st) pre -> len0 <= size pre -> lex_from st len0 rest = Some ts -> behind whole len0 ts) _ st rest S0 N0).
  clear st rest S0 N0. intros st rest ST N IH pre len0 ts W A L EQ. rewrite (lex_from_eq len0 ST N) in EQ.
  destruct (lex_step_total ST N) as [[-> E]|(r & n & B & L1 & R & E)]; rewrite E in EQ.
  - cbn in EQ. injection EQ as <-. cbn [behind t_len t_code]. destruct A as (_ & _ & _ & A). rewrite app_nil_r in W. subst whole. split; [lia|]. split; [lia|]. split; [lia|exact I].
  - assert (NE : rest <> []) by (intros ->; cbn in L1; lia).
    pose proof (run_rule_ok r (firstn n rest) ST) as P. pose proof (user_action_pos (firstn n rest) A) as (A' & C').
    assert (W' : whole = (pre ++ firstn n rest) ++ skipn n rest) by (rewrite <- app_assoc, firstn_skipn; exact W).
    assert (L' : len0 <= size (pre ++ firstn n rest)) by (rewrite size_app; unfold size in *; lia).
    destruct (run_rule r (firstn n rest) st) as [st'|c v st'].
    + destruct P as [PS PP]. apply (@IH st' n) with (pre := pre ++ firstn n rest); auto; [lia|now rewrite PP].
    + destruct P as (PS & PP & _). cbn zeta in EQ. rewrite PP in EQ. destruct A' as (A1 & A2 & A3 & A4).
      assert (SW : size (pre ++ firstn n rest) <= size whole) by (rewrite W', (size_app (pre ++ firstn n rest)); unfold size; lia).
      assert (G : exists before text after, whole = before ++ text ++ after /\ covers (user_action (firstn n rest) (lx_pos st)) before text /\
        size (before ++ text) = len0 + (slen (user_action (firstn n rest) (lx_pos st)) - len0) /\ len0 <= size before).
      { exists pre, (firstn n rest), (skipn n rest). rewrite app_assoc. split; [exact W'|]. split; [exact C'|]. lia. }
      destruct (c <=? 0) eqn:C0.
      * injection EQ as <-. cbn [behind t_len t_pos t_code]. split; [lia|]. split; [lia|]. split; [intros _; exact G|exact I].
      * destruct (lex_from st' _ _) as [ts'|] eqn:ET; [|discriminate EQ]. cbn [obind] in EQ. injection EQ as <-. cbn [behind t_len t_pos t_code]. split; [lia|]. split; [lia|]. split; [intros _; exact G|].
        replace (len0 + (slen (user_action (firstn n rest) (lx_pos st)) - len0)) with (slen (user_action (firstn n rest) (lx_pos st))) by lia.
        apply (@IH st' n) with (pre := pre ++ firstn n rest); auto; [lia|rewrite PP; repeat split; auto|lia].
Qed.
Lemma tokens_behind sql ts : tokens sql ts -> behind (c_string sql) 0 ts.
Proof.
  intro H. unfold tokens, lex_all in H. apply (@lex_from_behind (c_string sql) (lex_init []) (c_string sql)) with (pre := []); auto.
  - left; reflexivity.
  - apply c_string_NUL.
  - repeat split; reflexivity.
  - reflexivity.
Qed.
Lemma behind_at whole w : forall len0 t rest, behind whole len0 (w ++ t :: rest) -> 0 < t_code t ->
  exists before text after, whole = before ++ text ++ after /\ covers (t_pos t) before text /\ size (before ++ text) = len0 + total_len (w ++ [t]) /\ len0 + total_len w <= size before.
Proof.
  induction w as [|u w IH]; intros len0 t rest H C; cbn [app behind] in H.
  - destruct H as (_ & _ & H & _). destruct (H C) as (b & x & a & E & CV & S1 & S2). exists b, x, a. unfold total_len. cbn [app fold_right]. repeat split; try assumption; try apply CV; lia.
  - destruct H as (_ & _ & _ & H). destruct (IH _ _ _ H C) as (b & x & a & E & CV & S1 & S2). exists b, x, a. unfold total_len in *. cbn [app fold_right]. repeat split; try assumption; try apply CV; lia.
Qed.
Lemma behind_le whole a : forall len0 b, behind whole len0 (a ++ b) -> len0 <= size whole -> 0 <= total_len a /\ len0 + total_len a <= size whole.
Proof.
  induction a as [|u a IH]; intros len0 b H L; [unfold total_len; cbn; lia|]. cbn [app behind] in H. destruct H as (H1 & H2 & _ & H). destruct (IH _ _ H H2) as [X1 X2]. unfold total_len in *. cbn [fold_right]. lia.
Qed.
Lemma behind_mono whole a : forall len0 b, behind whole len0 (a ++ b) -> len0 <= size whole -> 0 <= total_len b.
Proof.
  induction a as [|u a IH]; intros len0 b H L; cbn [app behind] in H.
  - rewrite <- (app_nil_r b) in H. apply (@behind_le _ _ _ _ H L).
  - destruct H as (_ & H2 & _ & H). exact (IH _ _ H H2).
Qed.
Lemma behind_pos whole ts : forall len0, behind whole len0 ts -> Forall (fun t => 0 <= t_len t) ts.
Proof. induction ts as [|t ts IH]; intros len0 H; constructor; cbn [behind] in H; [tauto|]. apply (IH (len0 + t_len t)). tauto. Qed.
Lemma total_pos l : Forall (fun t => 0 <= t_len t) l -> 0 <= total_len l.
Proof. induction 1; unfold total_len in *; cbn [fold_right]; lia. Qed.
End Behind.

(** ** The theorem *)
Lemma psums_nth ns : forall acc i, i < List.length ns -> nth_error (psums acc ns) i = Some (acc + sum (firstn (S i) ns))%Z.
Proof.
  induction ns as [|n ns IH]; intros acc i L; [cbn in L; lia|]. cbn [psums]. destruct i as [|i]; cbn [nth_error]; [cbn; f_equal; lia|]. rewrite IH by (cbn in L; lia). f_equal.
  change (firstn (S (S i)) (n :: ns)) with (n :: firstn (S i) ns). unfold sum. cbn [fold_right]. lia.
Qed.
Lemma psums_len ns : forall acc, List.length (psums acc ns) = List.length ns.
Proof. induction ns as [|n ns IH]; intro acc; cbn [psums List.length]; auto. Qed.
Lemma Forall2_nth A C (Q : A -> C -> Prop) l m : Forall2 Q l m -> forall i x, nth_error l i = Some x -> exists y, nth_error m i = Some y /\ Q x y.
Proof. induction 1; intros [|i] z E; try discriminate E; cbn [nth_error] in *; [injection E as <-; eauto|auto]. Qed.
Lemma ends_mid ts : ends_eof ts -> forall a t b, ts = a ++ t :: b -> b <> [] -> (0 < t_code t)%Z.
Proof.
  induction 1 as [u C|u ts C E IH]; intros a t b EQ NE.
  - destruct a as [|? [|]]; cbn in EQ; injection EQ; intros; subst; try congruence.
  - destruct a as [|v a]; cbn in EQ; injection EQ as -> ->; [exact C|]. eapply IH; [reflexivity|exact NE].
Qed.
Lemma stretch_last ts i before g stop after : stretch ts i before g stop after -> last_stretch (before ++ g) = g.
Proof.
  intros [_ _ B G _]. assert (H : forall k, In k g -> sym_of k <> S_semi).
  { intros k I E. unfold semis in G. assert (F : In k (filter is_semi g)) by (apply filter_In; split; [exact I|exact (is_semi_sym _ E)]). destruct (filter is_semi g); [destruct F|discriminate G]. }
  destruct B as [->|(w & k & -> & K)]; [exact (last_stretch_plain H)|]. rewrite <- app_assoc. apply last_stretch_app; [|exact H]. now apply N.eqb_eq in K.
Qed.
(** The lengths cut the input into consecutive slices.  Slice [i] contains the texts of the tokens between the [i]-th and the next semicolon, and it ends
    where the token behind them (the semicolon or the end of input) ends, unless the parser has recognised the statement as complete without reading that token
    ([self_ending], Late.v: it ends with a hint list, it is SHOW TABLES, it is a SHOW, DESCRIBE or IMPORT statement that ends with a qualified table name, or it is an
    export (COPY ... TO) with options); then the slice ends where the last token of the statement ends and the semicolon belongs to the next slice.  There are as many slices as statements,
    and they cover the input up to the trailing semicolon or the end. *)
Theorem C19_slices : forall buf0 sql ts e, tokens sql ts -> parse buf0 sql fresh_env = PRet 0 e ->
  exists ns, map stringLength (e_stmts e) = map Some ns /\
    (forall i, i < List.length ns -> exists before g stop after, stretch ts i before g stop after /\
      slice_to ns i = total_len (if self_ending (map sym_of g) then before ++ g else before ++ g ++ [stop]) /\
      (forall t, In t g -> text_within sql t (slice_from ns i) (slice_to ns i)) /\
      (S i = List.length ns -> after = [] \/ exists k, after = [k] /\ sym_of k = 0%N)) /\
    (forall i, i <= List.length ns -> (0 <= sum (firstn i ns) <= size (c_string sql))%Z) /\
    Forall (fun n => 0 <= n)%Z ns.
Proof.
  intros buf0 sql ts e T P. destruct (tokens_total sql) as (ts' & T' & EE & TO & LB). unfold tokens in T'. unfold tokens in T. rewrite T in T'. injection T' as <-.
  unfold parse in P. rewrite LB in P. destruct (yyparse ts fresh_env) as [r1 e1|u|] eqn:Y; try discriminate P. injection P as -> <-.
  destruct (@yyparse_counted ts fresh_env (fun _ => 0) TO eq_refl eq_refl e1 EE (heap_ext heap_fresh (fun x => eq_refl)) Y) as (tl & sm & k & ns & AC & ML & CT).
  destruct AC as (lost & D & YD & SK & _). cbn [fresh_env e_stmts map app] in ML. exists ns. split; [exact ML|].
  inversion D as [|? ? ? ? PR DL]; subst. rewrite production_2 in PR. injection PR as <-. inversion DL as [|? ? ? ? D1 DL1]; subst. inversion DL1 as [|? ? ? ? D2 DL2]; subst. inversion DL2; subst. clear DL DL1 DL2.
  destruct (cuts_stretches tl D1) as (_ & CL & _ & CS). set (ts := yield tl ++ yield sm ++ [k]) in *.
  pose proof (tokens_behind _ _ T) as BH. pose proof (behind_pos _ _ _ BH) as FA.
  assert (LN : List.length ns = List.length (cuts tl)) by (rewrite <- (psums_len ns 0); symmetry; apply (Forall2_len CT)).
  assert (ES : forall i, i < List.length ns -> exists c, nth_error (cuts tl) i = Some c /\ ends_with ts c (slice_to ns i)).
  { intros i L. destruct (nth_error (cuts tl) i) as [c|] eqn:E; [|apply nth_error_None in E; lia]. exists c. split; [reflexivity|]. destruct (Forall2_nth _ _ _ _ _ CT i c E) as (n & E1 & E2). rewrite psums_nth in E1 by exact L. injection E1 as <-. exact E2. }
  (* the trailing part *)
  assert (TAIL : exists stop after, yield sm ++ [k] = stop :: after /\ (is_semi stop = true \/ sym_of stop = 0%N) /\ (after = [] \/ exists k', after = [k'] /\ sym_of k' = 0%N)).
  { inversion D2 as [q|r ? rhs us PR DL E1 E2]; subst.
    - exfalso. pose proof (sym_small q) as L. rewrite H in L. vm_compute in L. discriminate L.
    - assert (RR : rhs = [] \/ rhs = [S_semi]).
      { assert (A : forallb (fun p => if N.eqb (fst (snd p)) S_opt_semicolon then match snd (snd p) with [] => true | [X] => N.eqb X S_semi | _ => false end else true) grammar = true) by (vm_compute; reflexivity).
        rewrite forallb_forall in A. apply production_In in PR. specialize (A _ PR). cbn [fst snd] in A. rewrite N.eqb_refl in A. destruct rhs as [|X [|]]; try discriminate A; [now left|right]. apply N.eqb_eq in A. now subst X. }
      destruct RR as [->| ->].
      + inversion DL; subst. exists k, []. cbn. auto.
      + inversion DL as [|? ? t ? DT DN]; subst. inversion DN; subst. destruct (derives_terminal DT) as (q & -> & SQ); [reflexivity|]. exists q, [k]. cbn. split; [reflexivity|]. split; [left; exact (is_semi_sym _ SQ)|right; eauto]. }
  assert (STR : forall i c, nth_error (cuts tl) i = Some c -> exists before g stop after, c = before ++ g /\ stretch ts i before g stop after /\ (before = [] /\ i = 0 \/ exists w k j, before = w ++ [k] /\ is_semi k = true /\ i = S j /\ nth_error (cuts tl) j = Some w) /\
    (S i = List.length ns -> after = [] \/ exists k, after = [k] /\ sym_of k = 0%N)).
  { intros i c E. destruct (CS i c E) as (bf & g & rest & X1 & X2 & X3 & X4 & X5 & X6). destruct X6 as [[-> LI]|[(q & r & -> & SQ) LI]].
    - destruct TAIL as (stop & after & TL & TS & TA). exists bf, g, stop, after. split; [exact X1|]. split; [|split; [exact X5|intros _; exact TA]]. constructor; auto.
      + unfold ts. rewrite X2, X1, app_nil_r, TL, <- app_assoc. reflexivity.
      + destruct X5 as [[-> _]|(w & q & j & -> & SQ & _)]; [now left|right; eauto].
    - exists bf, g, q, (r ++ yield sm ++ [k]). split; [exact X1|]. split; [|split; [exact X5|intro; lia]]. constructor; auto.
      + unfold ts. rewrite X2, X1, <- !app_assoc. reflexivity.
      + destruct X5 as [[-> _]|(w & q' & j & -> & SQ' & _)]; [now left|right; eauto]. }
  assert (LE : forall i, i <= List.length ns -> exists c stop after, ts = c ++ stop ++ after /\ slice_from ns i = total_len (c ++ stop) /\ (i = 0 -> c = [] /\ stop = []) /\ (forall j, i = S j -> nth_error (cuts tl) j = Some c) /\ List.length stop <= 1).
  { intros i L. destruct i as [|j].
    - exists [], [], ts. repeat split; auto. intros j E. discriminate E.
    - destruct (ES j) as (c & E & la & rest & E1 & E2 & E3 & _); [lia|]. exists c, la, rest. split; [exact E1|]. split; [exact E3|]. split; [discriminate|]. split; [intros j' EJ; injection EJ as <-; exact E|exact E2]. }
  assert (MONO : forall i, i < List.length ns -> exists before g stop after, stretch ts i before g stop after /\ slice_to ns i = total_len (if self_ending (map sym_of g) then before ++ g else before ++ g ++ [stop]) /\
      (slice_from ns i <= total_len before)%Z /\ (S i = List.length ns -> after = [] \/ exists k, after = [k] /\ sym_of k = 0%N)).
  { intros i L. destruct (ES i L) as (c & E & la & rest & E1 & E2 & E3 & E4). destruct (STR i c E) as (bf & g & stop & after & -> & ST & PV & LA). exists bf, g, stop, after. split; [exact ST|]. split; [|split; [|exact LA]].
    - rewrite (stretch_last _ _ _ _ _ _ ST) in E4. destruct la as [|q [|]]; [rewrite (proj1 E4 eq_refl); now rewrite app_nil_r in E3| |cbn in E2; lia]. destruct (self_ending (map sym_of g)); [discriminate (proj2 E4 eq_refl)|]. pose proof (st_all _ _ _ _ _ _ ST) as SA. rewrite SA, app_assoc in E1. apply app_inv_head in E1. injection E1 as <- _. now rewrite <- app_assoc in E3.
    - destruct (LE i) as (c' & st & af & L1 & L2 & L3 & L4 & L5); [lia|]. rewrite L2. destruct PV as [[-> ->]|(w & q & j & -> & SQ & -> & EW)]; [destruct (L3 eq_refl) as [-> ->]; cbn; lia|].
      rewrite (L4 j eq_refl) in EW. injection EW as ->. pose proof (st_all _ _ _ _ _ _ ST) as SA. rewrite SA, <- app_assoc in L1. apply app_inv_head in L1. destruct st as [|q' [|]]; cbn [app] in L1; [|injection L1 as <- _; lia|cbn in L5; lia].
      rewrite app_nil_r, total_app. assert (Q : (0 <= total_len [q])%Z); [|lia]. apply total_pos. pose proof FA as FA'. rewrite SA in FA'. apply Forall_app in FA' as [FA' _]. apply Forall_app in FA' as [_ FA']. exact FA'. }
  split; [|split].
  - intros i L. destruct (MONO i L) as (bf & g & stop & after & ST & HI & LO & LA). exists bf, g, stop, after. split; [exact ST|]. split; [exact HI|]. split; [|exact LA].
    intros t IT. destruct (in_split _ _ IT) as (g1 & g2 & ->). pose proof (st_all _ _ _ _ _ _ ST) as SA.
    assert (CT0 : (0 < t_code t)%Z) by (eapply (ends_mid _ EE (bf ++ g1) t (g2 ++ stop :: after)); [rewrite SA, <- !app_assoc; reflexivity|destruct g2; discriminate]).
    assert (BH' : behind (c_string sql) 0 ((bf ++ g1) ++ t :: (g2 ++ stop :: after))) by (rewrite <- app_assoc; cbn [app] in *; rewrite SA, <- !app_assoc in BH; exact BH).
    destruct (behind_at _ _ _ _ _ BH' CT0) as (b & x & a & E1 & CV & S1 & S2). exists b, x, a. split; [exact E1|]. split; [exact CV|].
    assert (G1 : (0 <= total_len g1 /\ 0 <= total_len g2 /\ 0 <= t_len stop)%Z).
    { 
      rewrite SA in FA. apply Forall_app in FA as [_ FA]. rewrite <- app_assoc in FA. apply Forall_app in FA as [FA1 FA]. cbn [app] in FA. inversion FA as [|? ? FT FA2]; subst. apply Forall_app in FA2 as [FA2 FA3]. inversion FA3; subst.
      auto using total_pos. }
    assert (T1 : total_len [t] = t_len t) by (unfold total_len; cbn; lia). rewrite !total_app, ?T1 in *. split; [lia|].
    assert (TT : total_len (t :: g2) = (t_len t + total_len g2)%Z) by reflexivity. assert (TS : total_len [stop] = t_len stop) by (unfold total_len; cbn; lia).
    rewrite HI. destruct (self_ending _); rewrite ?total_app, TT, ?TS in *; lia.
  - intros i L. destruct (LE i L) as (c & st & af & L1 & L2 & _). fold (slice_from ns i). rewrite L2. assert (BH' : behind (c_string sql) 0 ((c ++ st) ++ af)) by (rewrite <- app_assoc, <- L1; exact BH). apply (@behind_le _ _ _ _ BH'). unfold size. lia.
  - apply Forall_forall. intros n IN. destruct (In_nth_error _ _ IN) as (i & E). assert (L : i < List.length ns) by (apply nth_error_Some; congruence). destruct (MONO i L) as (bf & g & stop & after & ST & HI & LO & LA).
    assert (EQ : slice_to ns i = (slice_from ns i + n)%Z).
    { unfold slice_to, slice_from. clear -E. revert i E. induction ns as [|m ns IH]; intros [|i] E; try discriminate E; [cbn in *; injection E as ->; lia|]. cbn [nth_error] in E. specialize (IH _ E). change (firstn (S (S i)) (m :: ns)) with (m :: firstn (S i) ns). change (firstn (S i) (m :: ns)) with (m :: firstn i ns). unfold sum in *. cbn [fold_right] in *. lia. }
    
    rewrite (st_all _ _ _ _ _ _ ST) in FA. apply Forall_app in FA as [_ FA]. apply Forall_app in FA as [FG FS]. inversion FS; subst. pose proof (total_pos _ FG). assert (TS : total_len [stop] = t_len stop) by (unfold total_len; cbn; lia). destruct (self_ending (map sym_of g)); rewrite !total_app in HI; lia.
Qed.
(** A sample: the first slice does not include its semicolon (SHOW TABLES is reduced without looking at the next token), the second one does, the third one
    ends with the input. *)
Example C19_example : exists e, parse [] (la "SHOW TABLES; SELECT a FROM t ; COMMIT ") fresh_env = PRet 0 e /\
  map stringLength (e_stmts e) = [Some 11; Some 19; Some 8]%Z /\ size (c_string (la "SHOW TABLES; SELECT a FROM t ; COMMIT ")) = 38%Z.
Proof. eexists. split; [vm_compute; reflexivity|]. split; vm_compute; reflexivity. Qed.
(** Every kind of self-ending statement, and its counterpart that is not. *)
Example C19_example_kinds :
  (exists e, parse [] (la "SELECT 1 WITH HINT(a);DESCRIBE s.t;SHOW COLUMNS s.t;IMPORT FROM TBL FILE 'f' INTO s.t;COPY t TO 'f' (FORMAT TBL);COMMIT") fresh_env = PRet 0 e /\
     map stringLength (e_stmts e) = [Some 21; Some 13; Some 17; Some 34; Some 27; Some 7]%Z) /\
  (exists e, parse [] (la "SELECT 1;DESCRIBE t;SHOW COLUMNS t;IMPORT FROM TBL FILE 'f' INTO t;COPY t TO 'f';COMMIT") fresh_env = PRet 0 e /\
     map stringLength (e_stmts e) = [Some 9; Some 11; Some 15; Some 32; Some 14; Some 6]%Z).
Proof. split; (eexists; split; [vm_compute; reflexivity|vm_compute; reflexivity]). Qed.
