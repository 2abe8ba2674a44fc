(** stringLength: an invariant of the parser about the running count of scanned bytes.  No code of /repo. *)
From Verif Require Export LexPos InvRun Prefix Late.
From Coq Require Import ZifyBool ZifyNat ZifyN.
Local Open Scope nat_scope.
Set Implicit Arguments.
Unset Strict Implicit.

(** The member stringLength of a statement. *)
Definition stringLength (s : val) : option Z :=
  match s with VObj _ _ fs => match lookup F_stringLength fs with Some (VInt n) => Some n | _ => None end | _ => None end.
Definition lens (l : list val) (ns : list Z) : Prop := map stringLength l = map Some ns.
Definition sum (ns : list Z) : Z := fold_right Z.add 0%Z ns.
Lemma total_app a b : total_len (a ++ b) = (total_len a + total_len b)%Z.
Proof. induction a as [|t a IH]; unfold total_len in *; cbn [app fold_right] in *; lia. Qed.
Lemma sum_app a b : sum (a ++ b) = (sum a + sum b)%Z.
Proof. induction a as [|t a IH]; unfold sum in *; cbn [app fold_right] in *; lia. Qed.
(** The tokens up to the end of each statement of a list. *)
Fixpoint cuts (t : tree) : list (list token) :=
  match t with
  | Node r (t1 :: _) => if N.eqb r 4 then cuts t1 ++ [yield t] else if N.eqb r 3 then [yield t] else []
  | _ => []
  end.
(** The tokens behind the last semicolon. *)
Definition last_stretch (c : list token) : list token := fold_left (fun w k => if N.eqb (sym_of k) S_semi then [] else w ++ [k]) c [].
Lemma stretch_plain b : forall w, (forall k, In k b -> sym_of k <> S_semi) -> fold_left (fun w k => if N.eqb (sym_of k) S_semi then [] else w ++ [k]) b w = w ++ b.
Proof. induction b as [|k b IH]; intros w H; cbn [fold_left]; [now rewrite app_nil_r|]. rewrite (proj2 (N.eqb_neq _ _) (H k (or_introl eq_refl))), IH by (intros q I; apply H; now right). now rewrite <- app_assoc. Qed.
Lemma last_stretch_plain b : (forall k, In k b -> sym_of k <> S_semi) -> last_stretch b = b.
Proof. intro H. unfold last_stretch. now rewrite stretch_plain. Qed.
Lemma last_stretch_app a k b : sym_of k = S_semi -> (forall q, In q b -> sym_of q <> S_semi) -> last_stretch (a ++ k :: b) = b.
Proof. intros E H. unfold last_stretch. rewrite fold_left_app. cbn [fold_left]. rewrite E, N.eqb_refl. now rewrite stretch_plain. Qed.
Lemma no_semi_stmt t : derives S_statement t -> forall k, In k (yield t) -> sym_of k <> S_semi.
Proof. intro D. apply (@lacks S_semi [S_statement_list; S_input; S_opt_semicolon; S_accept_]%N ltac:(vm_compute; reflexivity) _ _ D). vm_compute. reflexivity. Qed.
(** [n] bytes end with the tokens [c] if their last statement is self-ending, otherwise with the token that follows. *)
Definition ends_with (all c : list token) (n : Z) : Prop :=
  exists la rest, all = c ++ la ++ rest /\ List.length la <= 1 /\ n = total_len (c ++ la) /\ (la = [] <-> self_ending (map sym_of (last_stretch c)) = true).
Fixpoint psums (acc : Z) (ns : list Z) : list Z := match ns with [] => [] | n :: ns' => (acc + n)%Z :: psums (acc + n) ns' end.
Lemma psums_app ns : forall acc n, psums acc (ns ++ [n]) = psums acc ns ++ [(acc + sum ns + n)%Z].
Proof. induction ns as [|m ns IH]; intros acc n; cbn [app psums sum fold_right]; [do 2 f_equal; lia|]. rewrite IH. cbn [app]. unfold sum. do 3 f_equal. lia. Qed.
Definition cut_at (all : list token) (t : tree) (ns : list Z) : Prop := Forall2 (ends_with all) (cuts t) (psums 0 ns).

(** ** Facts about the grammar *)
Lemma list_rule r lhs rhs : production r = Some (lhs, rhs) -> (lhs = S_statement_list <-> r = 3%N \/ r = 4%N).
Proof.
  assert (A : forallb (fun p => Bool.eqb (N.eqb (fst (snd p)) S_statement_list) (N.eqb (fst p) 3 || N.eqb (fst p) 4)) grammar = true) by (vm_compute; reflexivity).
  rewrite forallb_forall in A. intro P. apply production_In in P. specialize (A _ P). cbn [fst snd] in A. apply eqb_prop in A. rewrite <- N.eqb_eq, A. split; intro X; lia.
Qed.
Lemma list_in r lhs rhs : production r = Some (lhs, rhs) -> r <> 1%N -> r <> 2%N -> r <> 4%N -> ~ In S_statement_list rhs /\ ~ In S_input rhs.
Proof.
  assert (A : forallb (fun p => if N.eqb (fst p) 1 then true else if N.eqb (fst p) 2 then true else if N.eqb (fst p) 4 then true else forallb (fun X => negb (N.eqb X S_statement_list) && negb (N.eqb X S_input)) (snd (snd p))) grammar = true) by (vm_compute; reflexivity).
  rewrite forallb_forall in A. intros P N1 N2 N4. apply production_In in P. specialize (A _ P). cbn [fst snd] in A.
  destruct (N.eqb_spec r 1) as [?|_]; [contradiction|]. destruct (N.eqb_spec r 2) as [?|_]; [contradiction|]. destruct (N.eqb_spec r 4) as [?|_]; [contradiction|].
  rewrite forallb_forall in A. split; intro X; specialize (A _ X); cbn in A; discriminate A.
Qed.
Lemma list_pred s : (0 <= s < 656)%Z -> stos s = S_statement_list \/ stos s = S_input -> preds s = [0%Z].
Proof.
  assert (A : forallb (fun s => if N.eqb (stos s) S_statement_list || N.eqb (stos s) S_input then match preds s with [0%Z] => true | _ => false end else true) all_states = true) by (vm_compute; reflexivity).
  rewrite forallb_forall in A. intros R E. specialize (A s). assert (X : In s all_states) by (apply zrange_In; lia). specialize (A X).
  assert (Y : N.eqb (stos s) S_statement_list || N.eqb (stos s) S_input = true) by (destruct E as [->| ->]; reflexivity). rewrite Y in A. destruct (preds s) as [|[| |] [|]]; try discriminate A. reflexivity.
Qed.
(** ** Facts about the actions *)
Lemma keeps_lpos r args e v e' : r <> 3%N -> r <> 4%N -> act r args e = ROk v e' -> e_lpos e' = e_lpos e.
Proof. intros N3 N4 E. pose proof (@f_act (fun x => e_lpos x = e_lpos e) (fun _ H => H) (fun _ _ H => H) (fun _ _ H => H) (fun _ _ H => H) (fun _ _ H => H) (fun _ _ _ _ _ H _ => H) r args N3 N4 e eq_refl) as F. rewrite E in F. exact F. Qed.
Lemma take_inv v e v' e' : take_string_length v e = ROk v' e' -> stringLength v' = Some (slen (e_lpos e)) /\ slen (e_lpos e') = 0%Z /\ e_stmts e' = e_stmts e.
Proof.
  unfold take_string_length, put. cbv zeta. destruct v as [| | | | | | |a c fs| |]; cbn [fail]; try discriminate. unfold bind, check. destruct (memN _ _); [|discriminate].
  destruct (lookup F_stringLength fs) eqn:L; [|discriminate]. unfold ret. intro E. injection E as <- <-. cbn [stringLength]. rewrite lookup_update, fld_beq_refl, L. auto.
Qed.
Lemma alloc_keeps v e e' : alloc e = ROk v e' -> e_lpos e' = e_lpos e. Proof. unfold alloc. intro E. injection E as _ <-. reflexivity. Qed.
Lemma act3 s e v e' : act 3 [s] e = ROk v e' -> exists b s', v = VVec b [s'] /\ stringLength s' = Some (slen (e_lpos e)) /\ slen (e_lpos e') = 0%Z.
Proof.
  unfold act. cbn [nth Nat.pred]. unfold bind at 1. destruct (take_string_length s e) as [s1 e1|e1|u] eqn:T; try discriminate. destruct (take_inv T) as (S1 & S2 & _).
  unfold vec1, vnew, vpush, bind, alloc, ret, check. cbn. rewrite N.eqb_refl. cbn [orb]. intro E. injection E as <- <-. exists (e_next e1), s1. split; [reflexivity|]. split; [exact S1|exact S2].
Qed.
Lemma act4 l k s e v e' : act 4 [l; k; s] e = ROk v e' -> exists b vs s', l = VVec b vs /\ v = VVec b (vs ++ [s']) /\ stringLength s' = Some (slen (e_lpos e)) /\ slen (e_lpos e') = 0%Z.
Proof.
  unfold act. cbn [nth Nat.pred]. unfold bind at 1. destruct (take_string_length s e) as [s1 e1|e1|u] eqn:T; try discriminate. destruct (take_inv T) as (S1 & S2 & _).
  unfold vpush. destruct l as [| | | | | | | |b vs|]; cbn [fail]; try discriminate. unfold bind, check. destruct (memN _ _); [|discriminate]. unfold ret. intro E. injection E as <- <-. eauto 10.
Qed.
Lemma poke_len a x v : stringLength (poke a F_ival x v) = stringLength v.
Proof.
  destruct v as [| | | | | | |b c fs| |]; try reflexivity. rewrite poke_obj. cbn [stringLength].
  assert (L : lookup F_stringLength (on_fields (poke a F_ival x) fs) = match lookup F_stringLength fs with Some y => Some (poke a F_ival x y) | None => None end).
  { unfold on_fields. induction fs as [|[g y] fs IH]; [reflexivity|]. cbn [map fst snd lookup]. destruct (fld_beq F_stringLength g); [reflexivity|exact IH]. }
  assert (U : lookup F_stringLength (if N.eqb a b then update F_ival x (on_fields (poke a F_ival x) fs) else on_fields (poke a F_ival x) fs) = lookup F_stringLength (on_fields (poke a F_ival x) fs)) by (destruct (N.eqb a b); [rewrite lookup_update; reflexivity|reflexivity]).
  rewrite U, L. destruct (lookup F_stringLength fs) as [[| | | | | | |b' c' fs'| |]|]; try reflexivity.
Qed.
Lemma number_len l : forall z e u e', number_params l z e = ROk u e' -> map stringLength (e_stmts e') = map stringLength (e_stmts e).
Proof.
  induction l as [|a l IH]; intros z e u e' E; cbn [number_params] in E; [injection E as <- <-; reflexivity|]. unfold bind, check in E. destruct (memN _ _); [|discriminate].
  match type of E with context [addParameter ?x ?y ?w] => destruct (addParameter x y w) as [u1 e1|e1|u1] eqn:A; try discriminate E; pose proof A as A' end. specialize (IH _ _ _ _ E). rewrite IH.
  assert (ST : e_stmts e1 = map (poke a F_ival (VInt z)) (e_stmts e)). { unfold addParameter in A'. cbn [e_params set_stmts] in A'. destruct (e_params e) in A'; [injection A' as _ <-; reflexivity|]. destruct (forallb _ _) in A'; [injection A' as _ <-; reflexivity|discriminate A']. }
  rewrite ST, map_map. apply map_ext. intro v. apply poke_len.
Qed.
Lemma act2 b l k e v e' : act 2 [VVec b l; k] e = ROk v e' -> map stringLength (e_stmts e') = map stringLength (e_stmts e ++ l).
Proof.
  unfold act. cbn [nth Nat.pred velems]. unfold bind at 1. unfold bind at 1. unfold check at 1. destruct (memN _ _); [|discriminate]. unfold ret at 1. unfold bind at 1. unfold bind at 1.
  match goal with |- context [number_params ?x ?y ?w] => destruct (number_params x y w) as [u1 e1|e1|u1] eqn:A; try discriminate end. apply number_len in A. cbn [e_stmts set_stmts] in A.
  unfold bind at 1. cbn [del_block]. unfold release. destruct (memN _ _); [|discriminate]. unfold ret. intro E. injection E as _ <-. cbn [set_heap e_stmts]. exact A.
Qed.

(** The root of the first tree tells whether statements have been counted. *)
Definition plain_tree (t : tree) : Prop := match t with Node r _ => r <> 2%N /\ r <> 3%N /\ r <> 4%N | Leaf _ => True end.
Lemma derives_head rhs t ts : derives_list rhs (t :: ts) -> exists X rh, rhs = X :: rh /\ derives X t.
Proof. inversion 1; eauto. Qed.
Lemma list_root t : derives S_statement_list t -> exists r us, t = Node r us /\ N.eqb r 3 || N.eqb r 4 = true.
Proof.
  intro D. inversion D as [k E|r X rhs ts P DL E]; subst.
  - exfalso. pose proof (sym_small k) as L. rewrite E in L. vm_compute in L. discriminate L.
  - exists r, ts. split; [reflexivity|]. pose proof (proj1 (list_rule P) eq_refl). lia.
Qed.
Lemma one_arg_app T (D : derives S_statement T) : last_stretch (yield T ++ []) = yield T.
Proof. rewrite app_nil_r. exact (last_stretch_plain (no_semi_stmt D)). Qed.
Lemma two_args X Y tp popped : derives_list [X; Y] tp -> map sym popped = [X; Y] -> exists x1 x2 t1 t2, popped = [x1; x2] /\ tp = [t1; t2] /\ derives X t1.
Proof. intros D E. destruct popped as [|x1 [|x2 [|]]]; try discriminate E. inversion D as [|? ? t1 ? D1 DX]; subst. inversion DX as [|? ? t2 ? D2 DY]; subst. inversion DY; subst. exists x1, x2, t1, t2. auto. Qed.
Lemma three_args X Y Z tp popped : derives_list [X; Y; Z] tp -> map sym popped = [X; Y; Z] -> exists x1 x2 x3 t1 t2 t3, popped = [x1; x2; x3] /\ tp = [t1; t2; t3] /\ derives X t1 /\ derives Y t2 /\ derives Z t3.
Proof. intros D E. destruct popped as [|x1 [|x2 [|x3 [|]]]]; try discriminate E. inversion D as [|? ? t1 ? D1 DX]; subst. inversion DX as [|? ? t2 ? D2 DY]; subst. inversion DY as [|? ? t3 ? D3 DZ]; subst. inversion DZ; subst. exists x1, x2, x3, t1, t2, t3. auto 10. Qed.
Lemma look_len l lk : look_ok l lk -> List.length lk <= 1.
Proof. destruct l as [[]|], lk as [|? [|]]; cbn; intro H; try contradiction; lia. Qed.
Lemma Forall2_hd A C (Q : A -> C -> Prop) x y l m : Forall2 Q (x :: l) (y :: m) -> Q x y.
Proof. now inversion 1. Qed.
Lemma plain_sym X t : derives X t -> X <> S_statement_list -> X <> S_input -> plain_tree t.
Proof.
  intros D N1 N2. destruct D as [k|r X rhs ts P _]; [exact I|]. cbn [plain_tree]. pose proof (list_rule P) as LR. split; [|split]; intros ->; [|tauto..].
  rewrite production_2 in P. injection P as <- _. congruence.
Qed.

Section Len.
Variables (ts0 : list token) (e0 : env) (B : N -> nat).
Hypothesis OK0 : Forall tok_ok ts0.
Hypothesis M0 : e_msg e0 = VNull.
Hypothesis P0 : e_params e0 = [].
Definition first_val (p : pstate) : val := match rev (p_stk p) with _ :: x :: _ => s_val x | _ => VUninit end.
Definition seen (a : astate) : list token := yields (atrees a) ++ alook a.
Definition counted (p : pstate) (a : astate) : Prop :=
  let n := slen (e_lpos (p_env p)) in
  match atrees a with
  | Node r us as t :: _ =>
    if N.eqb r 3 || N.eqb r 4 then exists b l ns, first_val p = VVec b l /\ lens l ns /\ cut_at ts0 t ns /\ (n + sum ns = total_len (seen a))%Z
    else if N.eqb r 2 then exists tl ns, hd_error us = Some tl /\ map stringLength (e_stmts (p_env p)) = map stringLength (e_stmts e0) ++ map Some ns /\ cut_at ts0 tl ns
    else n = total_len (seen a)
  | _ => n = total_len (seen a)
  end.
(** ** One round *)
Lemma counted_plain p a : match atrees a with [] => True | t :: _ => plain_tree t end -> counted p a <-> slen (e_lpos (p_env p)) = total_len (seen a).
Proof.
  unfold counted. destruct (atrees a) as [|[k|r us] l]; cbn [plain_tree]; [reflexivity|reflexivity|]. intros (N2 & N3 & N4).
  destruct (N.eqb_spec r 3) as [?|_]; [contradiction|]. destruct (N.eqb_spec r 4) as [?|_]; [contradiction|]. destruct (N.eqb_spec r 2) as [?|_]; [contradiction|]. reflexivity.
Qed.
Lemma plain_counted p a : match atrees a with [] => True | t :: _ => plain_tree t end -> slen (e_lpos (p_env p)) = total_len (seen a) -> counted p a.
Proof. intros H E. now apply (counted_plain p H). Qed.
Lemma counted_plain' p a : match atrees a with [] => True | t :: _ => plain_tree t end -> counted p a -> slen (e_lpos (p_env p)) = total_len (seen a).
Proof. intros H E. now apply (counted_plain p H). Qed.
Lemma counted_read p a t ts e' l : a_look a = None -> a_toks a = t :: ts -> slen (e_lpos e') = (slen (e_lpos (p_env p)) + t_len t)%Z -> e_stmts e' = e_stmts (p_env p) ->
  counted p a -> counted (mkP (p_stk p) l ts e') (mkA (a_stk a) (Some t) ts).
Proof.
  intros L T SL ST K. unfold counted in *. cbn [p_env p_stk first_val] in *. rewrite SL, ST.
  assert (SE : (total_len (seen (mkA (a_stk a) (Some t) ts)) = total_len (seen a) + t_len t)%Z).
  { unfold seen, alook. cbn [a_look]. rewrite L. change (atrees (mkA (a_stk a) (Some t) ts)) with (atrees a). rewrite !total_app. unfold total_len. cbn [fold_right]. lia. }
  change (atrees (mkA (a_stk a) (Some t) ts)) with (atrees a). destruct (atrees a) as [|[k|r us] q]; [lia|lia|].
  destruct (N.eqb r 3 || N.eqb r 4).
  - destruct K as (b & v & ns & K1 & K2 & K3 & K4). exists b, v, ns. split; [exact K1|]. split; [exact K2|]. split; [exact K3|]. lia.
  - destruct (N.eqb r 2); [exact K|lia].
Qed.
Lemma top_range p ents b trees lk lost : inv ts0 e0 B p ents b trees lk lost -> (0 <= atop (a_stk (abs ents trees lk (p_toks p))) < 656)%Z.
Proof.
  intro I. destruct (p_stk p) as [|x stk] eqn:ES; [exfalso; pose proof (i_stk I) as K; rewrite ES in K; destruct (rev ents); discriminate K|].
  rewrite (abs_top I ES). destruct (i_ctl I) as [CP _]. rewrite ES in CP. exact (path_cons CP).
Qed.
Lemma first_val_push p x l k e y z st : p_stk p = y :: z :: st -> first_val (mkP (x :: p_stk p) l k e) = first_val p.
Proof.
  intro E. unfold first_val. cbn [p_stk]. rewrite E. cbn [rev]. generalize (rev st) as w. intro w. destruct w as [|a [|b w]]; reflexivity.
Qed.
Lemma step_counted p ents b trees lk lost p' a' : inv ts0 e0 B p ents b trees lk lost -> lateinv (abs ents trees lk (p_toks p)) -> counted p (abs ents trees lk (p_toks p)) ->
  step p = Cont p' -> astep (abs ents trees lk (p_toks p)) = ACont a' -> counted p' a'.
Proof.
  intros I LV K ES AS. pose proof (step_cases (i_ctl I)) as SC. rewrite ES in SC.
  inversion SC as
    [HD E | x stk HD E1 E2 E | x stk t ts HD E1 E2 E3 E4 E5 E | x stk s' c v HD E1 E2 E3 E4 E5 E6 E
     | x stk r lhs rhs popped below stk' g HD E1 E2 E3 E4 E5 E6 E7 E8 E9 E10 E11 E12 E13 E14 E | x stk HD E1 E2 E3 E4 E].
  - match type of E with finish ?r ?m ?e = _ => destruct (finish_stop r m e) as [(? & ? & X)|(? & X)]; rewrite X in E; discriminate E end.
  - match type of E with finish ?r ?m ?e = _ => destruct (finish_stop r m e) as [(? & ? & X)|(? & X)]; rewrite X in E; discriminate E end.
  - rewrite (abs_step I E1 HD E2), E3 in AS. cbn [tok_of] in AS. rewrite E5 in AS. cbn zeta in AS. cbn [a_toks abs] in AS. rewrite E4 in AS. injection AS as <-.
    pose proof (i_look I) as LK. rewrite E3 in LK. destruct lk as [|]; [|destruct LK].
    unfold read_token, bind in E. destruct (token_value (t_val t) _) as [v e1|e1|u] eqn:TV; try discriminate E. unfold ret in E. injection E as <-.
    assert (X : e_lpos e1 = mkPos (fl (t_pos t)) (fc (t_pos t)) (ll (t_pos t)) (lc (t_pos t)) (total (t_pos t)) (slen (e_lpos (p_env p)) + t_len t) /\ e_stmts e1 = e_stmts (p_env p)).
    { destruct (t_val t); cbn [token_value] in TV; unfold ret, snew, bind, alloc in TV; injection TV as _ <-; split; reflexivity. }
    destruct X as [X1 X2]. eapply counted_read with (a := abs ents trees [] (p_toks p)); [reflexivity|exact E4|rewrite X1; reflexivity|exact X2|exact K].
  - rewrite (abs_step I E1 HD E2), E3 in AS. cbn [tok_of] in AS. rewrite E4 in AS. cbn zeta in AS. pose proof (i_look I) as LK. rewrite E3 in LK. destruct lk as [|t [|]]; try destruct LK as []; []. cbn [a_look abs hd_error] in AS. injection AS as <-.
    set (a := abs ents trees [t] (p_toks p)) in *. clear E.
    assert (TA : atrees a = trees) by (apply abs_trees, (Forall2_len (i_ents I))).
    match goal with |- counted _ ?x => set (a' := x) end.
    assert (AC : atrees a' = trees ++ [Leaf t]) by (unfold a'; rewrite atrees_cons; f_equal; exact TA).
    assert (SE : seen a' = seen a). { unfold seen. rewrite AC, TA. unfold yields. rewrite flat_map_app. cbn. rewrite !app_nil_r, <- ?app_assoc. reflexivity. }
    clearbody a a'. destruct trees as [|t1 trees].
    + apply plain_counted; [rewrite AC; exact Logic.I|]. rewrite SE. cbn [p_env]. apply counted_plain' in K; [exact K|rewrite TA; exact Logic.I].
    + unfold counted in *. rewrite AC, SE. rewrite TA in K. cbn [p_env].
      assert (FV : first_val (mkP (mkEnt s' v (loc_of (e_lpos (p_env p))) :: p_stk p) None (p_toks p) (p_env p)) = first_val p).
      { pose proof (i_ents I) as F. inversion F as [|y ? ents' ? _ _]; subst. pose proof (i_stk I) as IS. unfold first_val. cbn [p_stk]. rewrite IS. rewrite <- (rev_involutive (y :: ents')). cbn [rev]. rewrite !rev_app_distr. cbn [rev app]. rewrite ?rev_app_distr. cbn [rev app]. reflexivity. }
      rewrite FV. exact K.
  - destruct (act (Z.to_N r) (map s_val popped) _) as [v e1|e1|u] eqn:EA in E; [|match type of E with finish ?r ?m ?e = _ => destruct (finish_stop r m e) as [(? & ? & X)|(? & X)]; rewrite X in E; discriminate E end|discriminate E]. injection E as <-.
    pose proof I as I'. destruct I' as [ICTL ISTK IENTS ILOOK ITOKS IPOS IHEAP IFIRST ILOST IMSG IPH].
    destruct IPH as [EY|LT]; cycle 1.
    { exfalso. destruct (late_top ICTL ISTK IENTS LT) as (tl & ts & [(-> & x0 & -> & SX)|(k & y0 & x' & _ & _ & _ & PL & -> & SX)]);
        rewrite E1 in ISTK; cbn in ISTK; injection ISTK as -> ->; [|congruence]. rewrite SX in E3. exact (input_no_reduce ILOOK E3). }
    rewrite ISTK in E7. destruct (stack_split E7) as (ents1 & -> & EB). clear E7.
    destruct (Forall2_app_inv_l _ _ IENTS) as (trees1 & tp & F1 & F2 & ->). change (map sym popped = rhs) in E8.
    rewrite (abs_reduce I HD E1 E2 E3 E4 E8 (Forall2_len F1) (Forall2_len F2) EB E9) in AS. injection AS as <-.
    assert (LAT : forall xs x0 us s0, popped = xs ++ [x0] -> tp = us ++ [s0] -> derives S_statement s0 -> r = 3%Z \/ r = 4%Z -> (lk = [] <-> self_ending (map sym_of (yield s0)) = true)).
    { intros xs x0 us s0 -> -> DS RR. pose proof (top_range I) as RG. pose proof (abs_top I E1) as AT. pose proof (proj1 (abs_look ILOOK)) as TK. rewrite <- TK in E3.
      rewrite <- (abs_alook (ents1 ++ xs ++ [x0]) (trees1 ++ us ++ [s0]) (p_toks p) ILOOK). rewrite !app_assoc in *. rewrite abs_push in *. cbn [a_stk atop] in RG, AT.
      refine (@late_at _ r (s_state x0) s0 _ RG LV eq_refl DS _ RR). cbn [a_look]. rewrite AT. exact E3. }
    set (a := abs (ents1 ++ popped) (trees1 ++ tp) lk (p_toks p)) in *.
    assert (TA : atrees a = trees1 ++ tp) by (apply abs_trees, (Forall2_len (i_ents I))).
    match goal with |- counted _ ?x => set (a' := x) end.
    assert (TA' : atrees a' = trees1 ++ [Node (Z.to_N r) tp]).
    { unfold a'. rewrite atrees_cons. unfold atrees. cbn [a_stk]. now rewrite map_snd_combine, rev_involutive by (rewrite map_length, !rev_length; apply (Forall2_len F1)). }
    assert (AL : alook a' = alook a) by reflexivity.
    assert (LKA : alook a = lk) by (exact (abs_alook _ _ _ ILOOK)).
    assert (SE : seen a' = seen a). { unfold seen. rewrite TA, TA', AL. unfold yields. rewrite !flat_map_app. cbn [flat_map yield]. now rewrite app_nil_r. }
    assert (RNG : (0 <= g < 656)%Z) by exact (path_cons E12).
    assert (DL : derives_list rhs tp) by (rewrite <- E8; apply derives_list_of, F2).
    assert (BOT : lhs = S_statement_list \/ lhs = S_input -> trees1 = [] /\ ents1 = []).
    { intro L. rewrite <- E10 in L. pose proof (list_pred RNG L) as PS. destruct (path_pred E12) as (s0 & l0 & EL & IP); [intros ->; vm_compute in L; destruct L as [L|L]; discriminate L|].
      rewrite PS in IP. destruct IP as [<-|[]]. rewrite EB in E11. unfold states in *. rewrite EB in EL. destruct ents1 as [|y ents1 _] using rev_ind; [inversion F1; auto|]. exfalso. rewrite rev_app_distr in E11, EL. cbn [rev app map] in E11, EL. injection EL as EL _. rewrite EL in E11.
      inversion E11 as [X|]; [|congruence]. rewrite map_app in X. destruct (map s_state (rev ents1)); discriminate X. }
    assert (FV : ents1 ++ popped = [] \/ exists y, (exists q, ents1 ++ popped = y :: q) /\ first_val p = s_val y).
    { destruct (ents1 ++ popped) as [|y q] eqn:EQ; [now left|right]. exists y. split; [eauto|]. unfold first_val. rewrite ISTK. rewrite rev_app_distr, rev_involutive. reflexivity. }
    assert (FV' : first_val (mkP (mkEnt g v (default_loc popped below) :: below :: stk') (p_look p) (p_toks p) e1) = match ents1 with y :: _ => s_val y | [] => v end).
    { unfold first_val. cbn [p_stk]. rewrite EB. cbn [rev]. rewrite rev_app_distr, rev_involutive. destruct ents1; reflexivity. }
    destruct (N.eq_dec (Z.to_N r) 2) as [R2|R2]; [|destruct (N.eq_dec (Z.to_N r) 3) as [R3|R3]; [|destruct (N.eq_dec (Z.to_N r) 4) as [R4|R4]]].
    + rewrite R2 in *. rewrite production_2 in E4. injection E4 as <- <-. destruct (BOT (or_intror eq_refl)) as [-> ->]. destruct (two_args DL E8) as (x1 & x2 & tl & sm & -> & -> & D1). cbn [app map] in *.
      destruct (list_root D1) as (r1 & us & -> & RR). unfold counted in K |- *. rewrite TA in K. rewrite TA'. rewrite RR in K. destruct K as (bb & l & ns & K1 & K2 & K3 & K4).
      destruct FV as [FV|(y & (q & FV) & FW)]; [discriminate FV|]. injection FV as <- _. rewrite FW in K1. rewrite K1 in EA. cbn [N.eqb Pos.eqb orb]. eexists _, ns. split; [reflexivity|]. split; [|exact K3]. cbn [p_env].
      rewrite (act2 EA). cbn [set_loc e_stmts]. rewrite (ea_stmts EY), map_app. f_equal. exact K2.
    + rewrite R3 in *. assert (PR : production 3 = Some (S_statement_list, [S_statement])) by reflexivity. rewrite PR in E4. injection E4 as <- <-. destruct (BOT (or_introl eq_refl)) as [-> ->].
      inversion DL as [|? ? s0 ? D1 DN X1 X2]. inversion DN as [X3 X4|]. clear X3. subst tp. rewrite <- X4 in *. destruct popped as [|x1 [|]]; try discriminate E8. cbn [app map] in *.
      apply counted_plain' in K; [|rewrite TA; apply (plain_sym D1); discriminate]. destruct (act3 EA) as (bb & s' & -> & L1 & L2). cbn [set_loc e_lpos] in L1.
      unfold counted. rewrite TA'. cbn [N.eqb Pos.eqb orb p_env]. rewrite FV', L2, SE. exists bb, [s'], [slen (e_lpos (p_env p))]. split; [reflexivity|]. split; [unfold lens; cbn [map]; now rewrite L1|]. split; [|cbn [sum fold_right]; lia].
      unfold cut_at. cbn [cuts N.eqb Pos.eqb psums]. constructor; [|constructor]. exists lk, (p_toks p). cbn [yield flat_map]. rewrite <- ITOKS. cbn [yields flat_map]. split; [reflexivity|]. split; [exact (look_len ILOOK)|].
      split; [rewrite K; unfold seen; rewrite TA, LKA; reflexivity|]. rewrite (one_arg_app D1). apply (LAT [] x1 [] s0 eq_refl eq_refl D1). lia.
    + rewrite R4 in *. assert (PR : production 4 = Some (S_statement_list, [S_statement_list; S_semi; S_statement])) by reflexivity. rewrite PR in E4. injection E4 as <- <-. destruct (BOT (or_introl eq_refl)) as [-> ->].
      destruct (three_args DL E8) as (x1 & x2 & x3 & tl & sm & s0 & -> & -> & D1 & D2 & D3). cbn [app map] in *.
      destruct (list_root D1) as (r1 & us & -> & RR). unfold counted in K |- *. rewrite TA in K. rewrite TA'. rewrite RR in K. destruct K as (bb & l & ns & K1 & K2 & K3 & K4).
      destruct FV as [FV|(y & (q & FV) & FW)]; [discriminate FV|]. injection FV as <- _. rewrite FW in K1. destruct (act4 EA) as (b2 & vs & s' & V1 & -> & L1 & L2). cbn [set_loc e_lpos] in L1. rewrite K1 in V1. injection V1 as <- <-.
      cbn [N.eqb Pos.eqb orb p_env]. rewrite FV', L2, SE. exists bb, (l ++ [s']), (ns ++ [slen (e_lpos (p_env p))]). split; [reflexivity|]. split; [unfold lens in *; rewrite !map_app, K2; cbn [map]; now rewrite L1|].
      split; [|rewrite sum_app; cbn [sum fold_right]; lia]. unfold cut_at in *. rewrite psums_app. cbn [cuts N.eqb Pos.eqb]. apply Forall2_app; [exact K3|]. constructor; [|constructor]. exists lk, (p_toks p). split; [rewrite <- ITOKS; reflexivity|]. split; [exact (look_len ILOOK)|].
      split; [replace (0 + sum ns + slen (e_lpos (p_env p)))%Z with (total_len (seen a)) by lia; unfold seen; rewrite TA, LKA; reflexivity|].
      destruct (derives_terminal D2) as (ks & -> & SK); [reflexivity|]. assert (LS : last_stretch (yield (Node 4 [Node r1 us; Leaf ks; s0])) = yield s0).
      { change (yield (Node 4 [Node r1 us; Leaf ks; s0])) with (yield (Node r1 us) ++ ks :: (yield s0 ++ [])). rewrite app_nil_r. exact (last_stretch_app _ SK (no_semi_stmt D3)). }
      rewrite LS. apply (LAT [x1; x2] x3 [Node r1 us; Leaf ks] s0 eq_refl eq_refl D3). lia.
    + pose proof (keeps_lpos R3 R4 EA) as KL. cbn [set_loc e_lpos] in KL.
      assert (NL : lhs <> S_statement_list) by (intro L; apply (list_rule E4) in L; lia). assert (NI : lhs <> S_input) by (intro L; apply R2, (input_rule E4 L)).
      destruct trees1 as [|t1 trees1].
      * apply plain_counted; [rewrite TA'; cbn [app plain_tree]; tauto|]. cbn [p_env]. rewrite SE, KL. apply counted_plain' in K; [exact K|]. rewrite TA. cbn [app]. destruct tp as [|t1 tp]; [exact Logic.I|].
        destruct (list_in E4 ltac:(lia) R2 R4) as [L1 L2]. destruct (derives_head DL) as (X & rh & -> & D1). apply (plain_sym D1); intros ->; [apply L1|apply L2]; now left.
      * unfold counted in *. rewrite TA in K. rewrite TA', SE. cbn [app p_env] in *. rewrite KL, FV'. inversion F1 as [|y ? ents1' ? _ _]; subst ents1. destruct FV as [FV|(y' & (q & FV) & FW)]; [discriminate FV|]. cbn [app] in FV. injection FV as <- _. rewrite FW in K.
        destruct t1 as [k|r1 us]; [exact K|]. destruct (N.eqb r1 3 || N.eqb r1 4); [exact K|]. destruct (N.eqb_spec r1 2) as [->|_]; [|exact K].
        exfalso. pose proof (ea_ents EY) as NIN. rewrite Forall_forall in NIN. apply (NIN y); [now left|]. apply (derives_input (en_tree (Forall2_hd F1))).
  - match type of E with finish ?r ?m ?e = _ => destruct (finish_stop r m e) as [(? & ? & X)|(? & X)]; rewrite X in E; discriminate E end.
Qed.
Lemma accept_keeps p ents b trees lk lost x stk e : inv ts0 e0 B p ents b trees lk lost -> p_stk p = x :: stk -> s_state x = YYFINAL -> finish 0 (drop_look (p_look p) ;; pop_all (p_stk p)) (p_env p) = Stop 0 e ->
  e_stmts e = e_stmts (p_env p).
Proof.
  intros I ES EF E. destruct I as [ICTL ISTK IENTS ILOOK ITOKS IPOS IHEAP IFIRST ILOST IMSG IPH].
  assert (CL : cleans (drop_look (p_look p) ;; pop_all (p_stk p)) (fun x => lca x (p_look p) + cas x (map s_val (rev ents))) (true && quiet (rev ents))).
  { rewrite ISTK. apply cleans_seq; [apply (drop_look_cleans ILOOK)|]. apply pop_all_cleans; [apply Forall_rev', (ents_typed IENTS)|]. eapply ents_rng. rewrite <- ISTK. apply ICTL. }
  destruct (@cleans_run _ _ _ (p_env p) (fun x => ca x (e_msg (p_env p)) + cas x (e_stmts (p_env p)) + lost x + B x) CL) as (e2 & lost2 & E2 & S2 & _).
  { eapply heap_ext; [exact IHEAP|]. intro z. cbn beta. rewrite map_rev, cas_rev. lia. }
  unfold finish in E. rewrite E2 in E. injection E as <-. destruct S2 as ((Q1 & _) & _). exact Q1.
Qed.
Lemma run_counted n e : forall p ents b trees lk lost, inv ts0 e0 B p ents b trees lk lost -> lateinv (abs ents trees lk (p_toks p)) -> counted p (abs ents trees lk (p_toks p)) -> run n p = PRet 0 e ->
  exists tl ts k ns, accepted_as tl ts k ts0 e0 B e /\ map stringLength (e_stmts e) = map stringLength (e_stmts e0) ++ map Some ns /\ cut_at ts0 tl ns.
Proof.
  induction n as [|n IH]; intros p ents b trees lk lost I LV K E; [discriminate|]. cbn [run] in E. pose proof (inv_step OK0 M0 P0 I) as G.
  destruct (step p) as [p'|r1 e1|u] eqn:ES; cbn [good] in G; [|injection E as -> ->|discriminate].
  - destruct G as (ents' & b' & trees' & lk' & lost' & I' & AS). refine (IH _ _ _ _ _ _ I' _ (step_counted I LV K ES AS) E). refine (late_step _ LV AS). exact (top_range I).
  - destruct G as [(_ & AS & tl & ts & k & ACC & AT)|([G|G] & _)]; [|discriminate G..]. exists tl, ts, k. rewrite (abs_trees _ _ (Forall2_len (i_ents I))) in AT.
    unfold counted in K. rewrite (abs_trees _ _ (Forall2_len (i_ents I))), AT in K. cbn [N.eqb Pos.eqb orb hd_error] in K. destruct K as (tl' & ns & HD & K1 & K2). injection HD as <-. exists ns. split; [exact ACC|]. split; [|exact K2].
    rewrite <- K1. f_equal. pose proof (step_cases (i_ctl I)) as SC. rewrite ES in SC.
    inversion SC as
      [HD E | x stk HD E1 E2 E | x stk t ts' HD E1 E2 E3 E4 E5 E | x stk s' c v HD E1 E2 E3 E4 E5 E6 E
       | x stk r lhs rhs popped below stk' g HD E1 E2 E3 E4 E5 E6 E7 E8 E9 E10 E11 E12 E13 E14 E | x stk HD E1 E2 E3 E4 E].
    + exfalso. unfold finish in E. destruct (bind _ _ _) in E; discriminate E.
    + exact (accept_keeps I E1 E2 E).
    + exfalso. destruct (read_token _ _) in E; discriminate E.
    + exfalso. rewrite (abs_step I E1 HD E2) in AS. cbv zeta in AS. rewrite E3 in AS. destruct (act _ _ _) as [v e2|e2|u] in E; [discriminate E| |discriminate E]. unfold finish in E. destruct (bind _ _ _) in E; discriminate E.
    + exfalso. unfold finish in E. destruct (bind _ _ _) in E; discriminate E.
Qed.
Theorem yyparse_counted e : ends_eof ts0 -> heap e0 (fun x => cas x (e_stmts e0) + B x) -> yyparse ts0 e0 = PRet 0 e ->
  exists tl ts k ns, accepted_as tl ts k ts0 e0 B e /\ map stringLength (e_stmts e) = map stringLength (e_stmts e0) ++ map Some ns /\ cut_at ts0 tl ns.
Proof.
  intros EE H E. refine (@run_counted (parse_fuel (List.length ts0)) e (parse_init ts0 e0) [] bottom [] [] (fun _ => 0) _ _ _ E); [apply inv_init; assumption|exact Logic.I|reflexivity].
Qed.
End Len.
