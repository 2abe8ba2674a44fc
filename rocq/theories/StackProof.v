(** The parser with array stacks (Stacks.v) and the parser with a list (ParseModel.v) do the same. *)
From Verif Require Import Base BisonTables TokenCodes DestructTable LexModel Ast Heap Actions ParseModel Stacks.
Open Scope nat_scope.
Set Implicit Arguments.
Unset Strict Implicit.

(** The cells up to [sp] hold the stack [l] (top first); the value cell of the bottom entry is not used. *)
Record holds (ss : cells Z) (vs : cells val) (ls : cells loc) (sp : nat) (l : list entry) : Prop := {
  h_len : List.length l = S sp;
  h_get : forall d x, nth_error l d = Some x -> load ss (sp - d) = Some (s_state x) /\ load ls (sp - d) = Some (s_loc x) /\ (d < sp -> load vs (sp - d) = Some (s_val x)) }.
Record same (c : cstate) (p : pstate) : Prop := {
  r_ss : List.length (c_ss c) = YYINITDEPTH; r_vs : List.length (c_vs c) = YYINITDEPTH; r_ls : List.length (c_ls c) = YYINITDEPTH;
  r_sp : c_sp c < YYINITDEPTH;
  r_stk : holds (c_ss c) (c_vs c) (c_ls c) (c_sp c) (p_stk p);
  r_look : c_look c = p_look p; r_toks : c_toks c = p_toks p; r_env : c_env c = p_env p }.

Lemma holds_skip ss vs ls sp l n : holds ss vs ls sp l -> n <= sp -> holds ss vs ls (sp - n) (skipn n l).
Proof.
  intros [L G] N. constructor; [rewrite skipn_length; lia|]. intros d x E. replace (nth_error (skipn n l) d) with (nth_error l (n + d)) in E.
  - destruct (G _ _ E) as (A & B & C). replace (sp - n - d) with (sp - (n + d)) by lia. split; [exact A|]. split; [exact B|]. intro D. apply C. lia.
  - clear. revert l. induction n as [|n IH]; intro l; [reflexivity|]. destruct l as [|y l]; [cbn; now destruct d|]. cbn. apply IH.
Qed.
Lemma holds_tail ss vs ls sp x l : holds ss vs ls (S sp) (x :: l) -> holds ss vs ls sp l.
Proof. intro H. assert (N : 1 <= S sp) by lia. pose proof (holds_skip H N) as K. cbn [skipn] in K. now rewrite Nat.sub_succ, Nat.sub_0_r in K. Qed.
Lemma holds_top ss vs ls sp x l : holds ss vs ls sp (x :: l) -> load ss sp = Some (s_state x) /\ load ls sp = Some (s_loc x) /\ (0 < sp -> load vs sp = Some (s_val x)).
Proof. intros [_ G]. specialize (G 0 x eq_refl). now rewrite Nat.sub_0_r in G. Qed.

Lemma load_store {A} (a : cells A) i x b : store a i x = Some b -> List.length b = List.length a /\ load b i = Some x /\ forall j, j <> i -> load b j = load a j.
Proof.
  unfold store, in_array. destruct (Nat.ltb_spec i (List.length a)) as [L|]; [|discriminate]. intro E. injection E as <-.
  assert (F : List.length (firstn i a) = i) by (rewrite firstn_length; lia).
  split; [rewrite app_length, F; change (i + S (List.length (skipn (S i) a)) = List.length a); rewrite skipn_length; lia|]. unfold load. split.
  - rewrite nth_error_app2 by lia. now rewrite F, Nat.sub_diag.
  - intros j N. destruct (Nat.lt_ge_cases j i) as [J|J].
    + rewrite nth_error_app1 by lia. clear -J. revert i J a. induction j as [|j IH]; intros i J a; (destruct i; [lia|]); (destruct a; [reflexivity|]); cbn; [reflexivity|]. apply IH. lia.
    + rewrite nth_error_app2 by lia. rewrite F. replace (j - i) with (S (j - S i)) by lia. change (nth_error (Some x :: skipn (S i) a) (S (j - S i))) with (nth_error (skipn (S i) a) (j - S i)). rewrite <- (firstn_skipn (S i) a) at 2.
      rewrite nth_error_app2; rewrite firstn_length; [|lia]. now rewrite Nat.min_l by lia.
Qed.
Lemma store_in {A} (a : cells A) i x : i < List.length a -> exists b, store a i x = Some b.
Proof. intro L. unfold store, in_array. destruct (Nat.ltb_spec i (List.length a)); [eauto|lia]. Qed.

Lemma destruct_cell_eq ss vs ls sp x l e : holds ss vs ls sp (x :: l) -> 0 < sp -> destruct_cell ss vs sp e = destruct_entry x e.
Proof.
  intros H N. destruct (holds_top H) as (A & _ & C). unfold destruct_cell, destruct_entry. rewrite A, (C N). cbn. unfold bind, ret. now destruct (get yystos (s_state x)).
Qed.
Lemma pop_all_eq ss vs ls : forall sp l e, holds ss vs ls sp l -> cpop_all ss vs sp e = pop_all l e.
Proof.
  induction sp as [|sp IH]; intros l e H; pose proof (h_len H) as L; (destruct l as [|x l]; [discriminate|]); cbn [List.length] in L.
  - destruct l; [reflexivity|discriminate].
  - destruct l as [|y l]; [discriminate|]. cbn [cpop_all]. change (pop_all (x :: y :: l)) with (destruct_entry x ;; pop_all (y :: l)). unfold bind. rewrite (destruct_cell_eq e H) by lia.
    destruct (destruct_entry x e) as [u e'|e'|u]; [|reflexivity..]. apply IH. exact (holds_tail H).
Qed.
Lemma pop_error_eq ss vs ls : forall sp l e, holds ss vs ls sp l -> cpop_error ss vs ls sp e = pop_error l e.
Proof.
  induction sp as [|sp IH]; intros l e H; pose proof (h_len H) as L; (destruct l as [|x l]; [discriminate|]); cbn [List.length] in L; destruct (holds_top H) as (A & B & _).
  - destruct l; [|discriminate]. cbn [cpop_error pop_error]. rewrite A. cbn. unfold bind, ret. now destruct (error_shift (s_state x)) as [[|]|].
  - destruct l as [|y l]; [discriminate|]. cbn [cpop_error]. change (pop_error (x :: y :: l)) with (match error_shift (s_state x) with Some false => destruct_entry x ;; pop_error (y :: l) | _ => fail UTable end).
    rewrite A, B. cbn [lift]. unfold bind at 1, ret at 1. destruct (error_shift (s_state x)) as [[|]|]; [reflexivity| |reflexivity]. unfold bind at 1, ret at 1. unfold bind. rewrite (destruct_cell_eq e H) by lia.
    destruct (destruct_entry x e) as [u e'|e'|u]; [|reflexivity..]. apply IH. exact (holds_tail H).
Qed.
Lemma load_args_eq ss vs ls n : forall sp l acc, holds ss vs ls sp l -> n <= sp -> load_args vs n sp acc = Some (map s_val (rev (firstn n l)) ++ acc).
Proof.
  induction n as [|n IH]; intros sp l acc H N; [reflexivity|]. destruct sp as [|sp]; [lia|]. pose proof (h_len H) as L. destruct l as [|x l]; [discriminate|].
  cbn [load_args firstn rev]. destruct (holds_top H) as (_ & _ & C). rewrite (C ltac:(lia)). rewrite Nat.sub_succ, Nat.sub_0_r. rewrite (IH sp l) by (exact (holds_tail H) || lia).
  rewrite map_app, <- app_assoc. reflexivity.
Qed.
Lemma firstn_nth {A} n : forall (l : list A) d x, nth_error (firstn n l) d = Some x -> nth_error l d = Some x.
Proof. induction n as [|n IH]; intros [|y l] [|d] x E; cbn in *; try discriminate; auto. Qed.
Lemma last_cons {A} (x : A) l d : last (l ++ [x]) d = x.
Proof. induction l as [|y l IH]; [reflexivity|]. cbn [app last]. destruct (l ++ [x]) eqn:E; [destruct l; discriminate|]. exact IH. Qed.
Lemma default_loc_eq ss vs ls n sp l b l' : holds ss vs ls sp l -> n <= sp -> skipn n l = b :: l' -> cdefault_loc ls n sp = Some (default_loc (rev (firstn n l)) b).
Proof.
  intros H N SK. pose proof (h_len H) as L. destruct n as [|n].
  - cbn in SK. subst l. cbn. destruct (holds_top H) as (_ & B & _). now rewrite B.
  - destruct l as [|x l]; [discriminate|]. cbn [List.length] in L. destruct (holds_top H) as (_ & B & _). cbn [cdefault_loc firstn rev].
    destruct (rev (firstn n l)) as [|y r] eqn:R.
    + assert (n = 0). { apply (f_equal (@List.length _)) in R. rewrite rev_length, firstn_length in R. cbn in R. lia. } subst n. replace (sp - 1 + 1) with sp by lia. rewrite B. reflexivity.
    + cbn [app default_loc]. assert (LN : List.length (firstn n l) = S (List.length r)). { rewrite <- rev_length, R. reflexivity. } rewrite firstn_length in LN.
      assert (NT : nth_error (firstn n l) (n - 1) = Some y). { rewrite <- (rev_involutive (firstn n l)), R. cbn [rev]. rewrite nth_error_app2; rewrite rev_length; [|lia]. replace (n - 1 - List.length r) with 0 by lia. reflexivity. }
      apply firstn_nth in NT. destruct (h_get H (d := n) (x := y)) as (_ & Y & _). { destruct n; [lia|]. cbn. now rewrite Nat.sub_succ, Nat.sub_0_r in NT. }
      replace (sp - S n + 1) with (sp - n) by lia. rewrite Y, B. cbn [obind]. change (y :: r ++ [x]) with ((y :: r) ++ [x]). now rewrite last_cons.
Qed.

Lemma same_push c p sp l s v lc k e : same c p -> holds (c_ss c) (c_vs c) (c_ls c) sp l -> S sp < YYINITDEPTH -> exists c', cpush c sp s v lc k e = CCont c' /\ same c' (mkP (mkEnt s v lc :: l) k (p_toks p) e).
Proof.
  intros [R1 R2 R3 R4 _ _ R7 _] H L. unfold cpush.
  destruct (@store_in _ (c_vs c) (S sp) v) as (vs & EV); [lia|]. destruct (@store_in _ (c_ls c) (S sp) lc) as (ls & EL); [lia|]. destruct (@store_in _ (c_ss c) (S sp) s) as (ss & ES); [lia|].
  rewrite EV, EL, ES. cbn [orelse]. eexists. split; [reflexivity|]. destruct (load_store EV) as (V1 & V2 & V3), (load_store EL) as (L1 & L2 & L3), (load_store ES) as (S1 & S2 & S3).
  constructor; cbn [c_ss c_vs c_ls c_sp c_look c_toks c_env p_stk p_look p_toks p_env]; try congruence. pose proof (h_len H) as HL.
  constructor; [cbn [List.length]; now rewrite HL|]. intros [|d] x E; cbn [nth_error] in E.
  - injection E as <-. cbn [s_state s_loc s_val]. rewrite Nat.sub_0_r. auto.
  - rewrite Nat.sub_succ. assert (D : d < S sp). { rewrite <- HL. apply nth_error_Some. congruence. } destruct (h_get H E) as (A & B & C). rewrite S3, L3, V3 by lia. split; [exact A|]. split; [exact B|]. intro D'. apply C. lia.
Qed.

(** One round of the one is one round of the other. *)
Definition same_out (c : cout) (p : out) : Prop :=
  match c, p with CCont c', Cont p' => same c' p' | CStop r e, Stop r' e' => r = r' /\ e = e' | CUndef u, Undef u' => u = u' | _, _ => False end.
Lemma same_finish r m m' e : m e = m' e -> same_out (cfinish r m e) (finish r m' e).
Proof. intro E. unfold cfinish, finish. rewrite E. destruct (m' e); cbn; auto. Qed.
Lemma bind_ext A B (m : M A) (f g : A -> M B) e : (forall a e', f a e' = g a e') -> bind m f e = bind m g e.
Proof. intro H. unfold bind. destruct (m e); auto. Qed.
Lemma step_same c p : same c p -> same_out (cstep c) (step p).
Proof.
  intro R. pose proof R as [R1 R2 R3 R4 R5 R6 R7 R8]. pose proof (h_len R5) as L. unfold cstep, step. rewrite R6, R7, R8.
  destruct (p_stk p) as [|top stk] eqn:PS; [discriminate|]. destruct (holds_top R5) as (TA & _ & _). rewrite TA. cbn [orelse].
  replace (YYINITDEPTH <=? List.length (top :: stk)) with (YYINITDEPTH - 1 <=? c_sp c) by (rewrite L; unfold YYINITDEPTH; destruct (Nat.leb_spec (200 - 1) (c_sp c)), (Nat.leb_spec 200 (S (c_sp c))); lia).
  destruct (Nat.leb_spec (YYINITDEPTH - 1) (c_sp c)) as [FU|NF].
  { apply same_finish. apply bind_ext. intros _ e1. apply bind_ext. intros _ e2. exact (pop_all_eq e2 R5). }
  destruct (s_state top =? YYFINAL)%Z. { apply same_finish. apply bind_ext. intros _ e2. exact (pop_all_eq e2 R5). }
  cbv zeta. destruct (decide _ _) as [[|s'|r|]|]; [| | | |reflexivity].
  - destruct (p_toks p) as [|t ts]; [reflexivity|]. destruct (read_token t (p_env p)) as [k e'|e'|u]; [|reflexivity..]. cbn. constructor; cbn; try assumption; reflexivity.
  - destruct (p_look p) as [[k v]|]; [|reflexivity]. destruct (@same_push c p (c_sp c) (top :: stk) s' v (loc_of (e_lpos (p_env p))) None (p_env p) R R5) as (c' & E & S'); [lia|]. rewrite E. exact S'.
  - destruct (get yyr2 r) as [n0|]; [|reflexivity]. destruct (get yyr1 r) as [nt|]; [|reflexivity]. set (n := Z.to_nat n0).
    destruct (Nat.leb_spec n (c_sp c)) as [N|N].
    2:{ cbn [andb]. rewrite skipn_all2 by lia. reflexivity. }
    unfold in_array. rewrite R2, R3. destruct (Nat.ltb_spec (S (c_sp c) - n) YYINITDEPTH); [|lia]. cbn [andb].
    pose proof (holds_skip R5 N) as H'. pose proof (h_len H') as L'. destruct (skipn n (top :: stk)) as [|below stk'] eqn:SK; [discriminate|].
    rewrite (default_loc_eq R5 N SK). cbn [orelse]. rewrite (load_args_eq [] R5 N). cbn [orelse]. rewrite app_nil_r.
    destruct (act _ _ _) as [v e'|e'|u]; [| |reflexivity].
    + destruct (holds_top H') as (BA & _ & _). rewrite BA. cbn [orelse]. destruct (goto_of (s_state below) nt) as [g|]; [|reflexivity].
      destruct (@same_push c p (c_sp c - n) (below :: stk') g v (default_loc (rev (firstn n (top :: stk))) below) (p_look p) e' R H') as (c' & E & S'); [lia|]. rewrite E. exact S'.
    + apply same_finish. unfold bind. now rewrite (pop_error_eq e' H').
  - apply same_finish. apply bind_ext. intros _ e1. unfold bind. now rewrite (pop_error_eq e1 R5).
Qed.
Lemma run_same f : forall c p, same c p -> crun f c = run f p.
Proof.
  induction f as [|f IH]; intros c p R; [reflexivity|]. cbn [crun run]. pose proof (step_same R) as S. destruct (cstep c) as [c'|r e|u], (step p) as [p'|r' e'|u']; cbn in S; try contradiction.
  - now apply IH.
  - now destruct S as [-> ->].
  - now subst.
Qed.
Lemma init_same ts e : exists c, cinit ts e = Some c /\ same c (parse_init ts e).
Proof.
  unfold cinit. destruct (@store_in _ (repeat None YYINITDEPTH) 0 (mkLoc 0 0 0 0)) as (ls & EL); [cbn; lia|]. destruct (@store_in _ (repeat None YYINITDEPTH) 0 0%Z) as (ss & ES); [cbn; lia|].
  rewrite EL. cbn [obind]. rewrite ES. cbn [obind]. eexists. split; [reflexivity|]. destruct (load_store EL) as (L1 & L2 & _), (load_store ES) as (S1 & S2 & _).
  constructor; cbn [c_ss c_vs c_ls c_sp c_look c_toks c_env p_stk p_look p_toks p_env parse_init]; try reflexivity; [exact S1|exact L1|unfold YYINITDEPTH; lia|].
  constructor; [reflexivity|]. intros [|[|d]] x E; cbn in E; try discriminate. injection E as <-. cbn. split; [exact S2|]. split; [exact L2|lia].
Qed.
Theorem cyyparse_same ts e : cyyparse ts e = yyparse ts e.
Proof. unfold cyyparse, yyparse. destruct (init_same ts e) as (c & -> & S). now apply run_same. Qed.
