(** Parsing into a result object that still holds an error message or parameters, side by side with a parse into an object without.  No code
    of /repo. *)
From Verif Require Export Rel InvRun.
From Verif Require Import ParamProof.
From Coq Require Import ZifyBool ZifyNat ZifyN.
Local Open Scope nat_scope.
Set Implicit Arguments.
Unset Strict Implicit.

(** Parameters recorded later are inserted into the earlier ones. *)
Definition merge (ps qs : list (N * Z)) : list (N * Z) := fold_left (fun acc q => insert_param q acc) qs ps.
Definition err_same (e s : env) : Prop := e_valid s = e_valid e /\ e_msg s = e_msg e /\ e_line s = e_line e /\ e_col s = e_col e.

(** Derivations without CREATE TABLE t (columns). *)
Fixpoint no56 (t : tree) : bool := match t with Leaf _ => true | Node r ts => negb (N.eqb r 56) && forallb no56 ts end.

Lemma forallb_rev A (f : A -> bool) l : forallb f (rev l) = forallb f l.
Proof. induction l as [|x l IH]; [reflexivity|]. cbn [rev forallb]. rewrite forallb_app, IH. cbn. rewrite andb_true_r. apply andb_comm. Qed.
Section Stale.
(** The object before the call, seen by the parser: [s0]. *)
Variable s0 : env.
Notation ps0 := (e_params s0).
(** [e]: machine of the parse into an object without message and parameters; [s]: the machine of the parse into [s0]'s object. *)
Definition kept (e s : env) : Prop := e_msg e = VNull /\ err_eq s0 s.
Definition near (e s : env) : Prop := alike e s /\ e_params s = merge ps0 (e_params e) /\ (kept e s \/ (e_msg e <> VNull /\ err_same e s)).
Definition nearer (e s : env) : Prop := alike e s /\ e_params s = merge ps0 (e_params e) /\ e_msg e <> VNull /\ err_same e s.
Lemma nearer_near e s : nearer e s -> near e s. Proof. unfold nearer, near. tauto. Qed.
Lemma near_alike e s : near e s -> alike e s. Proof. now intros (A & _). Qed.
Ltac nr := intros; match goal with H : near _ _ |- _ => destruct H as ([A1 A2 A3 A4 A5 A6] & P & K) | H : nearer _ _ |- _ => destruct H as ([A1 A2 A3 A4 A5 A6] & P & K) end;
  (split; [constructor; cbn; auto|]; split; [assumption|]).
Lemma near_heap n l e s : near e s -> near (set_heap n l e) (set_heap n l s). Proof. nr. exact K. Qed.
Lemma near_stmts l e s : near e s -> near (set_stmts l e) (set_stmts l s). Proof. nr. exact K. Qed.
Lemma near_plist l e s : near e s -> near (set_plist l e) (set_plist l s). Proof. nr. exact K. Qed.
Lemma near_lpos l e s : near e s -> near (set_lpos l e) (set_lpos l s). Proof. nr. exact K. Qed.
Lemma near_loc l e s : near e s -> near (set_loc l e) (set_loc l s). Proof. nr. exact K. Qed.
Lemma near_error a m l c e s : near e s -> near (set_error (VStr a m) l c e) (set_error (VStr a m) l c s). Proof. nr. right. split; [discriminate|]. now repeat split. Qed.
Lemma nearer_alike e s : nearer e s -> alike e s. Proof. now intros (A & _). Qed.
Lemma nearer_heap n l e s : nearer e s -> nearer (set_heap n l e) (set_heap n l s). Proof. nr. exact K. Qed.
Lemma nearer_stmts l e s : nearer e s -> nearer (set_stmts l e) (set_stmts l s). Proof. nr. exact K. Qed.
Lemma nearer_plist l e s : nearer e s -> nearer (set_plist l e) (set_plist l s). Proof. nr. exact K. Qed.
Lemma nearer_lpos l e s : nearer e s -> nearer (set_lpos l e) (set_lpos l s). Proof. nr. exact K. Qed.
Lemma nearer_loc l e s : nearer e s -> nearer (set_loc l e) (set_loc l s). Proof. nr. exact K. Qed.
Lemma nearer_error a m l c e s : nearer e s -> nearer (set_error (VStr a m) l c e) (set_error (VStr a m) l c s). Proof. nr. split; [discriminate|]. now repeat split. Qed.

(** The rule a round reduces by, if any. *)
Definition rule_of (p : pstate) : option N :=
  match p_stk p with
  | [] => None
  | x :: _ => if (YYINITDEPTH <=? List.length (p_stk p)) || (s_state x =? YYFINAL)%Z then None else match decide (s_state x) (match p_look p with Some (c, _) => yytranslate_of c | None => None end) with Some (DReduce r) => Some (Z.to_N r) | _ => None end
  end.
Definition with_env (p : pstate) (e : env) : pstate := mkP (p_stk p) (p_look p) (p_toks p) e.
Lemma with_env_same p : with_env p (p_env p) = p. Proof. now destruct p. Qed.
(** Rounds in step. *)
Lemma near_step p s : near (p_env p) s -> rule_of p <> Some 2%N -> (rule_of p = Some 56%N -> e_msg s0 = VNull \/ e_msg (p_env p) <> VNull) ->
  same_step near (step p) (step (with_env p s)).
Proof.
  intros H N2 N56. assert (RR : forall x l r, p_stk p = x :: l -> List.length (p_stk p) < YYINITDEPTH -> s_state x <> YYFINAL -> decide (s_state x) (match p_look p with Some (c, _) => yytranslate_of c | None => None end) = Some (DReduce r) -> rule_of p = Some (Z.to_N r)).
  { intros x l r ES LD NF ED. unfold rule_of. rewrite ES in *. assert (Q : (YYINITDEPTH <=? List.length (x :: l)) || (s_state x =? YYFINAL)%Z = false) by lia. now rewrite Q, ED. }
  rewrite <- (with_env_same p) at 1. unfold with_env.
  assert (DEC : {rule_of p = Some 56%N} + {rule_of p <> Some 56%N}) by (decide equality; apply N.eq_dec). destruct DEC as [E56|E56].
  - destruct (msg_dec (e_msg (p_env p))) as [MN|MN].
    + assert (M0 : e_msg s0 = VNull) by (destruct (N56 E56); congruence).
      refine (r_step (R := near) near_alike near_heap near_stmts near_plist near_error near_lpos near_loc H _). intros x l r ES LD NF ED. specialize (RR x l r ES LD NF ED).
      split; [congruence|]. intros _ e1 s1 (_ & _ & [[K1 K2]|[K1 K2]]); [destruct K2 as (_ & K2 & _); congruence|symmetry; apply K2].
    + assert (H2 : nearer (p_env p) s). { destruct H as (A & P & [[K _]|K]); [congruence|]. split; auto. }
      assert (G : same_step nearer (step (mkP (p_stk p) (p_look p) (p_toks p) (p_env p))) (step (mkP (p_stk p) (p_look p) (p_toks p) s))).
      { refine (r_step (R := nearer) nearer_alike nearer_heap nearer_stmts nearer_plist nearer_error nearer_lpos nearer_loc H2 _). intros x l r ES LD NF ED. specialize (RR x l r ES LD NF ED).
        split; [congruence|]. intros _ e1 s1 (_ & _ & _ & K2). symmetry. apply K2. }
      revert G. unfold same_step. destruct (step (mkP _ _ _ (p_env p))), (step (mkP _ _ _ s)); auto; intuition auto using nearer_near.
  - refine (r_step (R := near) near_alike near_heap near_stmts near_plist near_error near_lpos near_loc H _). intros x l r ES LD NF ED. specialize (RR x l r ES LD NF ED).
    split; [congruence|]. intro Q. congruence.
Qed.

(** ** Rule 2 *)
Lemma insert_last q l : Forall (fun p => (snd p <= snd q)%Z) l -> insert_param q l = l ++ [q].
Proof. induction 1 as [|p l H F IH]; [reflexivity|]. cbn [insert_param]. destruct (Z.ltb_spec (snd q) (snd p)); [lia|]. now rewrite IH. Qed.
Lemma merge_snoc ps qs q : merge ps (qs ++ [q]) = insert_param q (merge ps qs).
Proof. unfold merge. rewrite fold_left_app. reflexivity. Qed.
Lemma insert_In x q l : In x (insert_param q l) <-> x = q \/ In x l.
Proof.
  induction l as [|p l IH]; cbn [insert_param In]; [intuition congruence|]. destruct (snd q <? snd p)%Z; cbn [In]; [intuition congruence|]. rewrite IH. intuition congruence.
Qed.
Lemma merge_In x ps qs : In x (merge ps qs) <-> In x ps \/ In x qs.
Proof.
  unfold merge. revert ps. induction qs as [|q qs IH]; intro ps; cbn [fold_left In]; [tauto|]. rewrite IH, insert_In. intuition congruence.
Qed.
Definition all_live (e : env) (ps : list (N * Z)) : Prop := forall q, In q ps -> memN (fst q) (e_live e) = true.
Lemma add_ok a z e e' : addParameter a z e = ROk tt e' -> e' = set_params (insert_param (a, z) (e_params e)) e.
Proof. unfold addParameter. destruct (e_params e) as [|q l]; [now injection 1 as <-|]. destruct (forallb _ _); [now injection 1 as <-|discriminate]. Qed.
Lemma all_live_dec e ps : all_live e ps \/ forallb (fun p => memN (fst p) (e_live e)) ps = false.
Proof. destruct (forallb (fun p => memN (fst p) (e_live e)) ps) eqn:E; [left|now right]. rewrite forallb_forall in E. exact E. Qed.
Lemma near_params q e s : near e s -> Forall (fun p => (snd p <= snd q)%Z) (e_params e) -> near (set_params (insert_param q (e_params e)) e) (set_params (insert_param q (e_params s)) s).
Proof. intros ([A1 A2 A3 A4 A5 A6] & P & K) F. split; [constructor; auto|]. split; [|exact K]. cbn [e_params set_params]. rewrite P, (insert_last F), merge_snoc. reflexivity. Qed.
Lemma number_near l : forall z e s e', near e s -> Forall (fun p => (snd p < z)%Z) (e_params e) -> all_live e (e_params e) -> number_params l z e = ROk tt e' ->
  e_live e' = e_live e /\ e_params e' = e_params e ++ numbers l z /\
  ((l = [] \/ all_live e ps0) /\ (exists s', number_params l z s = ROk tt s' /\ near e' s') \/ l <> [] /\ ~ all_live e ps0 /\ number_params l z s = RUB UUseAfterFree).
Proof.
  induction l as [|a l IH]; intros z e s e' H F LP E.
  - cbn [number_params] in *. injection E as <-. split; [reflexivity|]. cbn [numbers]. rewrite app_nil_r. split; [reflexivity|]. left. split; [now left|]. exists s. split; [reflexivity|exact H].
  - cbn [number_params] in *. unfold bind at 1 in E. unfold check in E. destruct (memN a (e_live e)) eqn:LA; [|discriminate]. unfold bind at 1 in E.
    set (e1 := set_stmts (map (poke a F_ival (VInt z)) (e_stmts e)) e) in *. set (s1 := set_stmts (map (poke a F_ival (VInt z)) (e_stmts s)) s).
    assert (H1 : near e1 s1) by (unfold s1; rewrite <- (al_stmts (near_alike H)); apply near_stmts, H).
    unfold bind at 1 in E. destruct (addParameter a z e1) as [[] e2| |] eqn:EA; try discriminate. apply add_ok in EA as ->. change (e_params e1) with (e_params e) in E.
    assert (H2 : near (set_params (insert_param (a, z) (e_params e)) e1) (set_params (insert_param (a, z) (e_params s)) s1)).
    { apply (near_params (q := (a, z)) H1). eapply Forall_impl; [|exact F]. cbn. lia. }
    assert (F2 : Forall (fun p => (snd p <= z)%Z) (e_params e)) by (eapply Forall_impl; [|exact F]; cbn; lia).
    assert (ST : number_params (a :: l) z s = match addParameter a z s1 with ROk _ s2 => number_params l (z + 1) s2 | RErr s2 => RErr s2 | RUB u => RUB u end).
    { cbn [number_params]. unfold bind, check. rewrite <- (al_live (near_alike H)), LA. reflexivity. }
    cbn [number_params] in ST. rewrite ST. clear ST.
    assert (ADD : all_live e (e_params s) /\ addParameter a z s1 = ROk tt (set_params (insert_param (a, z) (e_params s)) s1) \/ ~ all_live e ps0 /\ addParameter a z s1 = RUB UUseAfterFree).
    { unfold addParameter. change (e_params s1) with (e_params s). change (e_live s1) with (e_live s). rewrite <- (al_live (near_alike H)).
      destruct (all_live_dec e (e_params s)) as [D|D].
      - left. split; [exact D|]. destruct (e_params s) as [|q r] eqn:ES; [reflexivity|]. cbn [forallb fst]. rewrite LA. cbn [andb]. assert (Q : forallb (fun p => memN (fst p) (e_live e)) (q :: r) = true) by (apply forallb_forall; exact D).
        cbn [forallb] in Q. rewrite Q. reflexivity.
      - right. split.
        + intro L. assert (Q : forallb (fun p => memN (fst p) (e_live e)) (e_params s) = true); [|congruence]. apply forallb_forall. intros q I. destruct H as (_ & P & _). rewrite P in I. apply merge_In in I as [I|I]; auto.
        + destruct (e_params s) as [|q r] eqn:ES; [discriminate D|]. cbn [forallb] in D. cbn [forallb]. rewrite D. now rewrite andb_false_r. }
    destruct (IH (z + 1)%Z _ _ e' H2) as (L1 & P1 & C).
    { cbn [e_params set_params]. rewrite (insert_last (q := (a, z)) F2). apply Forall_app. split; [eapply Forall_impl; [|exact F]; cbn; lia|]. constructor; [cbn; lia|constructor]. }
    { cbn [e_params set_params]. intros q I. apply insert_In in I as [->|I]; [exact LA|now apply LP]. }
    { exact E. }
    split; [exact L1|]. split; [rewrite P1; cbn [e_params set_params]; rewrite (insert_last (q := (a, z)) F2), <- app_assoc; reflexivity|].
    destruct ADD as [(D & ->)|(D & ->)]; [|right; split; [discriminate|]; split; [exact D|reflexivity]].
    assert (D0 : all_live e ps0) by (intros q I; apply D; destruct H as (_ & P & _); rewrite P; apply merge_In; now left).
    destruct C as [(_ & C)|(_ & C & _)]; [left; split; [now right|exact C]|exfalso; apply C; exact D0].
Qed.
Lemma act_2_near args e s v e' : near e s -> e_params e = [] -> act 2 args e = ROk v e' -> e_params e' = numbers (e_plist e) 0 /\
  ((exists s', act 2 args s = ROk v s' /\ near e' s' /\ (e_plist e = [] \/ all_live e ps0)) \/ e_plist e <> [] /\ ~ all_live e ps0 /\ act 2 args s = RUB UUseAfterFree).
Proof.
  intros H P0 E. cbv beta iota zeta delta [act] in *. set (d1 := nth (Nat.pred 1) args VUninit) in *. unfold bind at 1 in E.
  assert (RV := r_velems near_alike d1 H). unfold same_out in RV.
  assert (EL : forall e1 l, velems d1 e = ROk l e1 -> e1 = e). { unfold velems, check, bind, ret. intros e1 l. destruct d1; try discriminate. destruct (memN _ _); [|discriminate]. now injection 1 as _ <-. }
  match goal with |- _ /\ ((exists s', ?m s = _ /\ _) \/ _) => set (M := m) end. assert (EM : M s = match velems d1 s with ROk l s1 => match number_params (e_plist s1) 0 (set_stmts (e_stmts s1 ++ l) s1) with ROk _ s2 => (del_block d1 ;; ret VUninit) s2 | RErr s2 => RErr s2 | RUB u => RUB u end | RErr s1 => RErr s1 | RUB u => RUB u end).
  { unfold M, bind. destruct (velems d1 s); reflexivity. }
  rewrite EM. clear EM M.
  destruct (velems d1 e) as [l e1| |] eqn:EV; try discriminate. destruct (velems d1 s) as [l2 s1| |]; try contradiction. destruct RV as [<- H1]. rewrite (EL _ _ eq_refl) in *. clear EL.
  assert (H2 : near (set_stmts (e_stmts e ++ l) e) (set_stmts (e_stmts s1 ++ l) s1)) by (rewrite <- (al_stmts (near_alike H1)); now apply near_stmts).
  rewrite <- (al_plist (near_alike H1)). unfold bind at 1 in E. unfold bind at 1 in E. change (e_plist (set_stmts (e_stmts e ++ l) e)) with (e_plist e) in E.
  destruct (number_params (e_plist e) 0 (set_stmts (e_stmts e ++ l) e)) as [[] e2| |] eqn:EN; try discriminate.
  destruct (number_near H2 (l := e_plist e) (z := 0%Z) (e' := e2)) as (_ & EQ & C).
  { cbn [e_params set_stmts]. rewrite P0. constructor. }
  { cbn [e_params set_stmts]. rewrite P0. intros q []. }
  { exact EN. }
  split.
  { cbn [e_params set_stmts] in EQ. rewrite P0 in EQ. cbn [app] in EQ. rewrite <- EQ. clear -E. unfold bind, del_block, release, fail, ret in E. destruct d1; try discriminate E; try (injection E as _ <-; reflexivity); (destruct (memN _ _); [injection E as _ <-; reflexivity|discriminate E]). }
  destruct C as [(D & s2 & -> & H3)|(D1 & D2 & ->)].
  - left. assert (RD : rel near (del_block d1 ;; ret VUninit)) by (apply r_bind; [apply r_del_block; [exact near_alike|exact near_heap]|intro; apply r_ret]).
    specialize (RD e2 s2 H3). unfold same_out in RD. rewrite E in RD. destruct ((del_block d1 ;; ret VUninit) s2) as [v2 s3| |]; try contradiction. destruct RD as [<- RD]. exists s3. split; [reflexivity|]. split; [exact RD|exact D].
  - right. split; [exact D1|]. split; [exact D2|reflexivity].
Qed.
(** Rule 2 is not left by an error, and overflows no number. *)
Lemma number_out l : forall z e, match number_params l z e with ROk _ _ => True | RErr _ => False | RUB u => u <> UScanf end.
Proof.
  induction l as [|a l IH]; intros z e; cbn [number_params]; [exact I|]. unfold bind at 1, check. destruct (memN _ _); [|discriminate]. unfold bind at 1. unfold bind at 1.
  unfold addParameter. cbn [e_params set_stmts e_live]. destruct (e_params e) as [|q r]; [apply IH|]. destruct (forallb _ _); [apply IH|discriminate].
Qed.
Lemma act_2_out args e : match act 2 args e with ROk _ _ => True | RErr _ => False | RUB u => u <> UScanf end.
Proof.
  cbv beta iota zeta delta [act]. set (d1 := nth (Nat.pred 1) args VUninit). unfold bind at 1. 
  assert (V : match velems d1 e with ROk _ _ => True | RErr _ => False | RUB u => u <> UScanf end) by (unfold velems, bind, check, fail, ret; destruct d1; try discriminate; try exact I; destruct (memN _ _); [exact I|discriminate]).
  destruct (velems d1 e) as [l e1| |]; try exact V. unfold bind at 1. unfold bind at 1. match goal with |- context [number_params ?a ?b ?c] => pose proof (number_out a b c) as G; destruct (number_params a b c) as [u e2| |] end; try exact G.
  clear. unfold bind, ret. assert (D : match del_block d1 e2 with ROk _ _ => True | RErr _ => False | RUB u => u <> UScanf end) by (unfold del_block, release, fail, ret; destruct d1; try discriminate; try exact I; destruct (memN _ _); (exact I || discriminate)).
  destruct (del_block d1 e2); exact D.
Qed.

(** ** CREATE TABLE in the derivation *)
Lemma astep_keeps a a' : astep a = ACont a' -> (forall r, decide (atop (a_stk a)) (atok (a_look a)) = Some (DReduce r) -> Z.to_N r <> 56%N) ->
  forallb no56 (atrees a) = true -> forallb no56 (atrees a') = true.
Proof.
  unfold astep, atrees. cbv zeta. destruct (199 <=? List.length (a_stk a)); [discriminate|]. destruct (_ =? YYFINAL)%Z; [discriminate|]. rewrite !forallb_rev.
  destruct (decide _ _) as [[|s'|r|]|]; try discriminate.
  - destruct (a_toks a); [discriminate|]. intros E _ H. injection E as <-. exact H.
  - destruct (a_look a); [|discriminate]. intros E _ H. injection E as <-. exact H.
  - destruct (production (Z.to_N r)) as [[lhs rhs]|]; [|discriminate]. destruct (goto_of _ _); [|discriminate]. intros E NR H. injection E as <-. cbn [a_stk map snd forallb no56].
    specialize (NR r eq_refl). destruct (N.eqb_spec (Z.to_N r) 56); [contradiction|]. cbn [negb andb]. rewrite <- (firstn_skipn (List.length rhs) (a_stk a)), map_app, forallb_app in H. apply andb_prop in H as [H1 H2].
    rewrite H2, map_rev, forallb_rev, H1. reflexivity.
Qed.
Lemma astep_has a a' : astep a = ACont a' -> forallb no56 (atrees a) = false -> forallb no56 (atrees a') = false.
Proof.
  unfold astep, atrees. cbv zeta. destruct (199 <=? List.length (a_stk a)); [discriminate|]. destruct (_ =? YYFINAL)%Z; [discriminate|]. rewrite !forallb_rev.
  destruct (decide _ _) as [[|s'|r|]|]; try discriminate.
  - destruct (a_toks a); [discriminate|]. intros E H. injection E as <-. exact H.
  - destruct (a_look a); [|discriminate]. intros E H. injection E as <-. exact H.
  - destruct (production (Z.to_N r)) as [[lhs rhs]|]; [|discriminate]. destruct (goto_of _ _); [|discriminate]. intros E H. injection E as <-. cbn [a_stk map snd forallb no56].
    rewrite <- (firstn_skipn (List.length rhs) (a_stk a)), map_app, forallb_app in H. rewrite map_rev, forallb_rev. apply andb_false_iff in H as [-> | ->]; rewrite ?andb_false_r; reflexivity.
Qed.
Lemma asteps_has a a' : asteps a a' -> forallb no56 (atrees a) = false -> forallb no56 (atrees a') = false.
Proof. induction 1 as [|a b c E _ IH]; [auto|]. intro H. apply IH. eapply astep_has; eassumption. Qed.
Lemma astep_makes a a' r : astep a = ACont a' -> decide (atop (a_stk a)) (atok (a_look a)) = Some (DReduce r) -> Z.to_N r = 56%N -> forallb no56 (atrees a') = false.
Proof.
  unfold astep, atrees. cbv zeta. destruct (199 <=? List.length (a_stk a)); [discriminate|]. destruct (_ =? YYFINAL)%Z; [discriminate|]. intros E D R. rewrite D in E.
  destruct (production (Z.to_N r)) as [[lhs rhs]|]; [|discriminate]. destruct (goto_of _ _); [|discriminate]. injection E as <-. rewrite forallb_rev. cbn [a_stk map snd forallb no56]. rewrite R. reflexivity.
Qed.
(** Only these symbols derive CREATE TABLE t (columns). *)
Definition above56 : list N := [S_create_statement; S_preparable_statement; S_statement; S_statement_list; S_input; 199%N].
Lemma derives_above X t : derives X t -> no56 t = false -> existsb (N.eqb X) above56 = true.
Proof.
  assert (K : forallb (fun p => existsb (N.eqb (fst (snd p))) above56 || (negb (N.eqb (fst p) 56) && forallb (fun Y => negb (existsb (N.eqb Y) above56)) (snd (snd p)))) grammar = true) by (vm_compute; reflexivity).
  rewrite forallb_forall in K. intro D. revert X t D. apply (derives_mind (fun X t _ => no56 t = false -> existsb (N.eqb X) above56 = true)
    (fun Xs ts _ => forallb no56 ts = false -> existsb (fun Y => existsb (N.eqb Y) above56) Xs = true)).
  - discriminate.
  - intros r lhs rhs ts P D IH H. specialize (K _ (production_In P)). cbn [fst snd] in K. apply orb_prop in K as [K|K]; [exact K|]. apply andb_prop in K as [K1 K2]. cbn [no56] in H. rewrite K1 in H. cbn [andb] in H.
    specialize (IH H). apply existsb_exists in IH as (Y & IY & EY). rewrite forallb_forall in K2. specialize (K2 Y IY). rewrite EY in K2. discriminate K2.
  - discriminate.
  - intros X Xs t ts D IH DL IHL H. cbn [forallb] in H. cbn [existsb]. apply andb_false_iff in H as [H|H]; [now rewrite IH|]. rewrite IHL by exact H. apply orb_true_r.
Qed.

(** ** The simulation *)
Variables (ts0 : list token) (c0 : env) (B0 : N -> nat).
Hypothesis OK0 : Forall tok_ok ts0.
Hypothesis M0 : e_msg c0 = VNull.
Hypothesis P0 : e_params c0 = [].
Hypothesis MS : msg_ok (e_msg s0).
Hypothesis SS : e_stmts s0 = e_stmts c0.
Notation B := (fun x => ca x (e_msg s0) + B0 x).
(** The old message made CREATE TABLE fail. *)
Definition stopped (s : env) : Prop := e_msg s0 <> VNull /\ err_eq s0 s /\ e_stmts s = e_stmts s0 /\ e_params s = ps0 /\
  exists lost, heap s (fun x => ca x (e_msg s) + cas x (e_stmts s) + lost x + B0 x).
Hypothesis H0 : heap c0 (fun x => cas x (e_stmts c0) + B x).
(** The old parameters have been allocated some time. *)
Hypothesis A0 : forall q, In q ps0 -> (fst q < e_next c0)%N.
Definition asks : Prop := exists t, In t ts0 /\ t_code t = 63%Z.
Definition sim_out (o o' : parse_out) : Prop :=
  match o' with
  | PRet c s => (exists e, o = PRet c e /\ near e s /\ (e_params e = [] \/ all_live c0 ps0) /\
                   (c = 0%Z -> exists tl ts k, accepted_as tl ts k ts0 c0 B e /\ (e_msg s0 = VNull \/ no56 tl = true)))
     \/ c = 1%Z /\ stopped s /\ (forall e, o = PRet 0 e -> exists tl ts k, accepted_as tl ts k ts0 c0 B e /\ no56 tl = false)
  | PUB u => o = PUB u \/ u = UUseAfterFree /\ ~ all_live c0 ps0 /\ asks /\ (forall c e, o = PRet c e -> e_params e <> [])
  | PFuel => o = PFuel
  end.
Lemma tok_look p lk : look_ok (p_look p) lk -> (match p_look p with Some (c, _) => yytranslate_of c | None => None end) = atok (hd_error lk).
Proof. intro L. rewrite (proj1 (abs_look L)). reflexivity. Qed.
Lemma rule_abs p ents b trees lk lost x stk : inv ts0 c0 B p ents b trees lk lost -> p_stk p = x :: stk ->
  decide (s_state x) (match p_look p with Some (c, _) => yytranslate_of c | None => None end) = decide (atop (a_stk (abs ents trees lk (p_toks p)))) (atok (a_look (abs ents trees lk (p_toks p)))).
Proof. intros I ES. rewrite (abs_top I ES). cbn [abs a_look]. now rewrite (tok_look (i_look I)). Qed.
Lemma ctl_env p s : ctl p -> ctl (with_env p s).
Proof. intros [A C]. split; assumption. Qed.
Lemma rule_some p r : rule_of p = Some r -> exists x stk z, p_stk p = x :: stk /\ List.length (p_stk p) < YYINITDEPTH /\ s_state x <> YYFINAL /\
  decide (s_state x) (match p_look p with Some (c, _) => yytranslate_of c | None => None end) = Some (DReduce z) /\ Z.to_N z = r.
Proof.
  unfold rule_of. destruct (p_stk p) as [|x stk]; [discriminate|]. destruct ((YYINITDEPTH <=? List.length (x :: stk)) || (s_state x =? YYFINAL)%Z) eqn:Q; [discriminate|].
  destruct (decide _ _) as [[|s'|z|]|] eqn:D; try discriminate. intro E. injection E as <-. exists x, stk, z. split; [reflexivity|]. split; [lia|]. split; [lia|auto].
Qed.
Definition reduction (p : pstate) (r : N) : Prop := exists x stk z lhs rhs popped below stk' g,
  p_stk p = x :: stk /\ List.length (p_stk p) < YYINITDEPTH /\ s_state x <> YYFINAL /\ decide (s_state x) (tok_of (p_look p)) = Some (DReduce z) /\ Z.to_N z = r /\
  production r = Some (lhs, rhs) /\ p_stk p = rev popped ++ below :: stk' /\ map sym popped = rhs /\ path (states (below :: stk')) /\ s_state below <> YYFINAL /\
  forall s, step (with_env p s) = (match act r (map s_val popped) (set_loc (default_loc popped below) s) with
                 | ROk v e' => Cont (mkP (mkEnt g v (default_loc popped below) :: below :: stk') (p_look p) (p_toks p) e')
                 | RErr e' => finish 1 (pop_error (below :: stk') ;; drop_look (p_look p)) e'
                 | RUB u => Undef u
                 end).
Lemma reduce_case p r s : ctl p -> rule_of p = Some r -> exists x stk z lhs rhs popped below stk' g,
  p_stk p = x :: stk /\ List.length (p_stk p) < YYINITDEPTH /\ s_state x <> YYFINAL /\ decide (s_state x) (tok_of (p_look p)) = Some (DReduce z) /\ Z.to_N z = r /\
  production r = Some (lhs, rhs) /\ p_stk p = rev popped ++ below :: stk' /\ map sym popped = rhs /\ path (states (below :: stk')) /\ s_state below <> YYFINAL /\
  goto_of (s_state below) (Z.of_N lhs) = Some g /\
  step (with_env p s) = (match act r (map s_val popped) (set_loc (default_loc popped below) s) with
                 | ROk v e' => Cont (mkP (mkEnt g v (default_loc popped below) :: below :: stk') (p_look p) (p_toks p) e')
                 | RErr e' => finish 1 (pop_error (below :: stk') ;; drop_look (p_look p)) e'
                 | RUB u => Undef u
                 end).
Proof.
  intros CT E. destruct (rule_some E) as (x & stk & z & ES & LD & NF & DE & RZ). pose proof (step_cases (ctl_env s CT)) as SC.
  remember (step (with_env p s)) as o eqn:EO. change (match p_look p with Some (c, _) => yytranslate_of c | None => None end) with (tok_of (p_look p)) in DE.
  destruct SC as
    [HD | x' stk0 HD E1 E2 | x' stk0 t ts HD E1 E2 E3 E4 E5 | x' stk0 s' c v HD E1 E2 E3 E4 E5 E6
     | x' stk0 z' lhs rhs popped below stk' g HD E1 E2 E3 E4 E5 E6 E7 E8 E9 E10 E11 E12 E13 E14 | x' stk0 HD E1 E2 E3 E4]; cbn [with_env p_stk p_look p_toks p_env] in *.
  - lia.
  - rewrite ES in E1. injection E1 as <- _. contradiction.
  - rewrite ES in E1. injection E1 as <- _. rewrite E3 in DE. cbn [tok_of] in DE. congruence.
  - rewrite ES in E1. injection E1 as <- _. rewrite E3 in DE. cbn [tok_of] in DE. congruence.
  - rewrite ES in E1. injection E1 as <- _. rewrite DE in E3. injection E3 as <-. rewrite RZ in *. exists x, stk, z, lhs, rhs, popped, below, stk', g. auto 20.
  - rewrite ES in E1. injection E1 as <- _. congruence.
Qed.
Lemma rule_reduction p r : ctl p -> rule_of p = Some r -> reduction p r.
Proof.
  intros CT E. destruct (reduce_case (p_env p) CT E) as (x & stk & z & lhs & rhs & popped & below & stk' & g & ES & LD & NF & DE & RZ & PR & EP & RH & PB & NB & GO & _).
  exists x, stk, z, lhs, rhs, popped, below, stk', g. repeat (split; [assumption|]). intro s.
  destruct (reduce_case s CT E) as (x2 & stk2 & z2 & lhs2 & rhs2 & popped2 & below2 & stk2' & g2 & _ & _ & _ & _ & _ & PR2 & EP2 & RH2 & _ & _ & GO2 & ->).
  rewrite PR in PR2. injection PR2 as <- <-. rewrite EP in EP2. assert (L : List.length (rev popped) = List.length (rev popped2)) by (rewrite !rev_length, <- (map_length sym popped), <- (map_length sym popped2); congruence).
  assert (Q : rev popped = rev popped2 /\ below :: stk' = below2 :: stk2').
  { clear -EP2 L. revert EP2 L. generalize (rev popped), (rev popped2). induction l as [|a l IH]; intros [|a2 l2] EQ L; try discriminate L; [auto|]. cbn [app] in EQ. injection EQ as <- EQ. destruct (IH l2 EQ); [now injection L|]. split; congruence. }
  destruct Q as [Q1 Q2]. apply (f_equal (@rev _)) in Q1. rewrite !rev_involutive in Q1. injection Q2 as <- <-. subst popped2. rewrite GO in GO2. injection GO2 as <-. reflexivity.
Qed.
(** Rule 56 with an old message. *)
Lemma heap_like e s F : alike e s -> heap e F -> heap s F.
Proof. intros [A1 A2 _ _ _ _] [H1 H2 H3]. constructor; rewrite <- ?A1, <- ?A2; assumption. Qed.
Lemma stop_56 p s ents b trees lk lost : inv ts0 c0 B p ents b trees lk lost -> near (p_env p) s -> rule_of p = Some 56%N -> e_msg s0 <> VNull -> e_msg (p_env p) = VNull ->
  exists s', step (with_env p s) = Stop 1 s' /\ stopped s'.
Proof.
  intros I H E MN MP. pose proof I as I'. destruct I' as [ICTL ISTK IENTS ILOOK ITOKS IPOS IHEAP IFIRST ILOST IMSG IPH].
  destruct (rule_reduction ICTL E) as (x & stk & z & lhs & rhs & popped & below & stk' & g & ES & LD & NF & DE & RZ & PR & EP & RH & PB & NB & ST). rewrite ST. clear ST.
  destruct IPH as [EA|LT]; cycle 1.
  { exfalso. destruct (late_top ICTL ISTK IENTS LT) as (tl & ts & [(-> & x0 & -> & SX)|(k & y0 & x' & _ & _ & _ & PL & -> & SX)]);
      rewrite ES in ISTK; cbn in ISTK; injection ISTK as -> ->; [|congruence]. rewrite SX in DE. exact (input_no_reduce ILOOK DE). }
  rewrite ISTK in EP. destruct (stack_split EP) as (ents1 & -> & EB). clear EP.
  destruct (Forall2_app_inv_l _ _ IENTS) as (trees1 & tp & F1 & F2 & ->).
  set (loc := default_loc popped below) in *. set (e := set_loc loc s) in *.
  destruct H as (AL & PA & K). destruct K as [[_ K]|[K _]]; [|congruence].
  assert (SE : e_stmts s = e_stmts (p_env p)) by (symmetry; apply (al_stmts AL)).
  assert (ME : e_msg e = e_msg s0) by apply K.
  assert (HE : heap e (fun x => cas x (map s_val popped) + ca x (e_msg e) + (cas x (map s_val ents1) + lca x (p_look p) + cas x (e_stmts e) + lost x + B0 x))).
  { apply heap_loc. eapply heap_ext; [exact (heap_like AL IHEAP)|]. intro y. cbn beta. rewrite map_app, cas_app, MP, ME. change (e_stmts e) with (e_stmts s). rewrite SE. cbn [ca]. lia. }
  assert (TY : typed (map s_val popped) rhs) by (rewrite <- RH; apply typed_of, (ents_typed F2)).
  assert (MO : msg_ok (e_msg e)) by (rewrite ME; exact MS).
  assert (AC := @actions_correct 56 lhs rhs PR ltac:(discriminate) ltac:(discriminate) (map s_val popped) e _ TY MO HE).
  destruct (act 56 (map s_val popped) e) as [v e'|e'|u] eqn:EACT.
  - exfalso. assert (RQ : rhs = [S_CREATE; S_TABLE; S_opt_not_exists; S_table_name; S_lpar; S_table_elem_commalist; S_rpar]) by (vm_compute in PR; injection PR as _ PR; now rewrite <- PR).
    rewrite RQ in TY. pose proof (act_56_msg TY MO HE EACT) as Q. congruence.
  - destruct AC as [EH EM ES' EP ELP]. destruct EH as (lost' & EH & ELZ).
    assert (CL : cleans (pop_error (below :: stk') ;; drop_look (p_look p)) (fun x => cas x (map s_val ents1) + lca x (p_look p)) (quiet (rev ents1))).
    { rewrite EB. eapply cleans_ext.
      - apply cleans_seq; [|apply (drop_look_cleans ILOOK)]. apply pop_error_cleans.
        + apply Forall_rev', (ents_typed F1).
        + eapply ents_rng. rewrite <- EB. exact PB.
        + rewrite <- EB. apply stack_shifts; [exact PB|exact NB].
      - intro y. cbn beta. rewrite map_rev, cas_rev. lia.
      - intro C. now rewrite andb_true_r. }
    destruct (@cleans_run _ _ _ e' (fun x => ca x (e_msg e') + lost' x + cas x (e_stmts e') + lost x + B0 x) CL) as (e2 & lost2 & E2 & S2 & H2 & LZ).
    { eapply heap_ext; [exact EH|]. intro y. cbn beta. rewrite ES'. lia. }
    exists e2. unfold finish. rewrite E2. split; [reflexivity|]. destruct S2 as ((Q1 & Q2 & Q3 & Q4 & Q5) & (Q6 & Q7 & Q8 & Q9)).
    assert (EE : err_eq e e').
    { destruct EM as [(_ & EE & _)|(_ & AB)]; [exact EE|]. exfalso. clear -AB. cbv beta iota zeta delta [asem] in AB. discriminate AB. }
    split; [exact MN|]. split.
    { destruct EE as (V1 & V2 & V3 & V4). destruct K as (K1 & K2 & K3 & K4). unfold err_eq. cbn [e set_loc e_valid e_msg e_line e_col] in V1, V2, V3, V4. repeat split; congruence. }
    split; [rewrite Q1, ES'; cbn [e set_loc e_stmts]; rewrite SE, (ea_stmts EA); congruence|].
    split; [rewrite Q2, EP; cbn [e set_loc e_params]; rewrite PA, (ea_params EA), P0; reflexivity|].
    exists (fun y => lost2 y + lost' y + lost y). eapply heap_ext; [exact H2|]. intro y. cbn beta. rewrite Q7, Q1. lia.
  - exfalso. destruct AC as (_ & _ & _ & _ & [[AC _]|[AC _]]); discriminate AC.
Qed.
(** ** Rounds *)
Lemma step_params p : rule_of p <> Some 2%N -> match step p with Cont p' => e_params (p_env p') = e_params (p_env p) | Stop _ e => e_params e = e_params (p_env p) | Undef _ => True end.
Proof.
  intro N2. set (X := e_params (p_env p)). assert (G : same_step (fun e s => e = s /\ e_params e = X) (step (with_env p (p_env p))) (step (with_env p (p_env p)))).
  { apply r_step; try (intros; match goal with H : _ /\ _ |- _ => destruct H as [-> H] end; first [constructor; reflexivity|split; [reflexivity|exact H]]); [now split|].
    intros x l r ES LD NF ED. split; [|intros _ e s [-> _]; reflexivity]. intro Q. apply N2. unfold rule_of. rewrite ES in *. assert (Q2 : (YYINITDEPTH <=? List.length (x :: l)) || (s_state x =? YYFINAL)%Z = false) by lia. now rewrite Q2, ED, Q. }
  rewrite with_env_same in G. destruct (step p) as [p'|c e|u]; cbn [same_step] in G; [apply G|apply G|exact I].
Qed.
(** ** The end of the run *)
Lemma no_rule p ents b trees lk lost : inv ts0 c0 B p ents b trees lk lost -> late c0 p trees -> rule_of p = None.
Proof.
  intros I LT. destruct (rule_of p) as [r|] eqn:E; [exfalso|reflexivity]. destruct (rule_some E) as (x & stk & z & ES & LD & NF & DE & RZ). change (match p_look p with Some (c, _) => yytranslate_of c | None => None end) with (tok_of (p_look p)) in DE.
  destruct I as [ICTL ISTK IENTS ILOOK ITOKS IPOS IHEAP IFIRST ILOST IMSG IPH].
  destruct (late_top ICTL ISTK IENTS LT) as (tl & ts & [(-> & x0 & -> & SX)|(k & y0 & x' & _ & _ & _ & PL & -> & SX)]);
      rewrite ES in ISTK; cbn in ISTK; injection ISTK as -> ->; [|congruence]. rewrite SX in DE. exact (input_no_reduce ILOOK DE).
Qed.
Lemma asked p ents b trees lk lost : inv ts0 c0 B p ents b trees lk lost -> e_params (p_env p) <> [] -> late c0 p trees /\ asks.
Proof.
  intros I NP. destruct (i_phase I) as [EA|LT]; [exfalso; apply NP; rewrite (ea_params EA); exact P0|]. split; [exact LT|].
  destruct LT as (tl & ts & rest & ET & MN & RO & _). pose proof (i_ents I) as IE. rewrite ET in IE. inversion IE as [|y ? ents' ? E1 E2]; subst.
  pose proof (en_tree E1) as D. inversion D as [|? ? ? ? P DL]; subst. rewrite production_2 in P. injection P as _ <-. inversion DL as [|? ? ? ? D1 D2]; subst.
  destruct RO as [(l & _ & _ & SM & _) RP]. rewrite P0 in RP. cbn [app] in RP. pose proof (sem_count D1 SM ltac:(discriminate)) as Q.
  assert (L : List.length (e_plist (p_env p)) <> 0). { intro L. apply NP. rewrite RP. destruct (e_plist (p_env p)); [reflexivity|discriminate L]. }
  assert (X : exists t, In t (yield tl) /\ is_q t = true).
  { assert (G : qs (yield tl) <> 0) by lia. unfold qs in G. destruct (filter is_q (yield tl)) as [|t r] eqn:F; [exfalso; apply G; reflexivity|]. exists t. apply filter_In. rewrite F. now left. }
  destruct X as (t & IT & QT). exists t. split; [|rewrite is_q_code in QT; lia]. rewrite <- (i_toks I). apply in_app_iff. left. cbn [yields flat_map yield]. apply in_app_iff. left. apply in_app_iff. now left.
Qed.
Lemma late_run n : forall p ents b trees lk lost c e, inv ts0 c0 B p ents b trees lk lost -> e_params (p_env p) <> [] -> run n p = PRet c e -> e_params e <> [].
Proof.
  induction n as [|n IH]; intros p ents b trees lk lost c e I NP E; [discriminate E|]. cbn [run] in E. destruct (asked I NP) as [LT _].
  assert (N2 : rule_of p <> Some 2%N) by (rewrite (no_rule I LT); discriminate). pose proof (step_params N2) as SP. pose proof (inv_step OK0 M0 P0 I) as G.
  destruct (step p) as [p'|c' e'|u]; [|injection E as _ <-; congruence|discriminate E]. cbn [good] in G. destruct G as (ents' & b' & trees' & lk' & lost' & I' & _). eapply IH; [exact I'|congruence|exact E].
Qed.
(** Old parameters that were freed stay freed, and those that were not stay allocated. *)
Definition gone (e : env) : Prop := forall q, In q ps0 -> memN (fst q) (e_live c0) = false -> (fst q < e_next e)%N /\ memN (fst q) (e_live e) = false.
Lemma memN_remove x a l : memN x l = false -> memN x (removeN a l) = false.
Proof. induction l as [|y l IH]; [auto|]. cbn [memN removeN]. intro H. apply orb_false_iff in H as [H1 H2]. destruct (N.eqb a y); [exact H2|]. cbn [memN]. now rewrite H1, IH. Qed.
Lemma gone_step p : gone (p_env p) -> match step p with Cont p' => gone (p_env p') | Stop _ e => gone e \/ reports p | Undef _ => True end.
Proof.
  apply f_step; unfold gone; cbn; auto.
  - intros e H q I D. destruct (H q I D) as [A1 A2]. split; [lia|]. destruct (N.eqb_spec (fst q) (e_next e)); [lia|exact A2].
  - intros a e H q I D. destruct (H q I D) as [A1 A2]. split; [exact A1|]. now apply memN_remove.
Qed.
Lemma live_same p ents b trees lk lost : inv ts0 c0 B p ents b trees lk lost -> early c0 (p_env p) ents trees -> gone (p_env p) -> all_live (p_env p) ps0 <-> all_live c0 ps0.
Proof.
  intros I EA G. split; intros A q IQ.
  - destruct (memN (fst q) (e_live c0)) eqn:D; [reflexivity|]. destruct (G q IQ D) as [_ D2]. rewrite (A q IQ) in D2. discriminate D2.
  - specialize (A q IQ). apply (heap_mem (i_heap I)). apply cntN_mem in A. rewrite (heap_live H0) in A. cbn beta in *. rewrite (ea_stmts EA). lia.
Qed.
Lemma msg_step p : e_msg (p_env p) <> VNull -> match step p with Cont p' => e_msg (p_env p') <> VNull | Stop _ e => e_msg e <> VNull \/ reports p | Undef _ => True end.
Proof. refine (@f_step (fun e => e_msg e <> VNull) _ _ _ _ _ _ _ _ p); cbn; auto. discriminate. Qed.
Lemma cont_rule p ents b trees lk lost a' r : inv ts0 c0 B p ents b trees lk lost -> astep (abs ents trees lk (p_toks p)) = ACont a' ->
  decide (atop (a_stk (abs ents trees lk (p_toks p)))) (atok (a_look (abs ents trees lk (p_toks p)))) = Some (DReduce r) -> rule_of p = Some (Z.to_N r).
Proof.
  intros I AS DR. destruct (p_stk p) as [|x stk] eqn:ES; [pose proof (i_stk I) as Q; rewrite ES in Q; destruct (rev ents); discriminate Q|]. rewrite <- (rule_abs I ES) in DR.
  unfold astep in AS. cbv zeta in AS. rewrite (abs_len _ _ (Forall2_len (i_ents I))), (abs_top I ES) in AS. destruct (Nat.leb_spec 199 (List.length ents)) as [|LE]; [discriminate|]. destruct (s_state x =? YYFINAL)%Z eqn:SF; [discriminate|].
  unfold rule_of. pose proof (i_stk I) as Q. rewrite ES in *. rewrite SF, DR. assert (L : List.length (x :: stk) = S (List.length ents)) by (rewrite Q, app_length, rev_length; cbn; lia).
  rewrite L. change YYINITDEPTH with 200. destruct (Nat.leb_spec 200 (S (List.length ents))); [lia|reflexivity].
Qed.
Lemma rule_decide p ents b trees lk lost r : inv ts0 c0 B p ents b trees lk lost -> rule_of p = Some r ->
  exists z, decide (atop (a_stk (abs ents trees lk (p_toks p)))) (atok (a_look (abs ents trees lk (p_toks p)))) = Some (DReduce z) /\ Z.to_N z = r.
Proof. intros I E. destruct (rule_some E) as (x & stk & z & ES & LD & NF & DE & RZ). exists z. rewrite <- (rule_abs I ES). auto. Qed.
Lemma tree_56 tl ts k : derives S_input (Node 2 [tl; ts]) -> forallb no56 [Node 2 [tl; ts]; Leaf k] = no56 tl.
Proof.
  intro D. inversion D as [|? ? ? ? P DL]; subst. rewrite production_2 in P. injection P as <-. inversion DL as [|? ? ? ? D1 D2]; subst. inversion D2 as [|? ? ? ? D3 D4]; subst. cbn [forallb no56]. 
  assert (Q : no56 ts = true). { destruct (no56 ts) eqn:Q; [reflexivity|]. pose proof (derives_above D3 Q) as A. vm_compute in A. discriminate A. }
  rewrite Q. change (negb (N.eqb 2 56)) with true. cbn [andb]. now rewrite !andb_true_r.
Qed.
(** ** Side by side *)
Definition early_or_live (e : env) : Prop := e_params e = [] \/ all_live c0 ps0.
Lemma sim n : forall p s ents b trees lk lost, inv ts0 c0 B p ents b trees lk lost -> near (p_env p) s -> gone (p_env p) -> early_or_live (p_env p) ->
  (e_msg s0 = VNull \/ e_msg (p_env p) <> VNull \/ forallb no56 trees = true) -> run n p <> PFuel -> sim_out (run n p) (run n (with_env p s)).
Proof.
  induction n as [|n IH]; intros p s ents b trees lk lost I NE GO EL M56 NF; [now destruct NF|].
  pose proof (inv_step OK0 M0 P0 I) as G. pose proof (gone_step GO) as GS. pose proof (@run_explained ts0 c0 B OK0 M0 P0 (S n) _ _ _ _ _ _ I NF) as EX. cbn [run] in *.
  assert (TR : atrees (abs ents trees lk (p_toks p)) = trees) by (apply abs_trees, (Forall2_len (i_ents I))).
  assert (D2 : {rule_of p = Some 2%N} + {rule_of p <> Some 2%N}) by (decide equality; apply N.eq_dec). destruct D2 as [E2|N2].
  - destruct (rule_reduction (i_ctl I) E2) as (x & stk & z & lhs & rhs & popped & below & stk' & g & ES & LD & NFS & DE & RZ & PR & EP & RH & PB & NB & SF).
    pose proof (SF (p_env p)) as SP. rewrite with_env_same in SP. pose proof (SF s) as SP'. set (loc := default_loc popped below) in *.
    destruct (i_phase I) as [EA|LT]; [|rewrite (no_rule I LT) in E2; discriminate E2].
    pose proof (act_2_out (map s_val popped) (set_loc loc (p_env p))) as AO.
    destruct (act 2 (map s_val popped) (set_loc loc (p_env p))) as [v e'|e'|u] eqn:AE; [|destruct AO|rewrite SP in G; cbn [good] in G; destruct G as [[[G _] _] _]; contradiction].
    assert (PE : e_params (set_loc loc (p_env p)) = []) by (change (e_params (p_env p) = []); rewrite (ea_params EA); exact P0).
    destruct (act_2_near (near_loc loc NE) PE AE) as [PN C]. change (e_plist (set_loc loc (p_env p))) with (e_plist (p_env p)) in *.
    pose proof (live_same I EA GO) as LS. change (all_live (set_loc loc (p_env p)) ps0) with (all_live (p_env p) ps0) in C. rewrite LS in C.
    rewrite SP in *. cbn [good] in G. destruct G as (ents' & b' & trees' & lk' & lost' & I' & AS).
    destruct C as [(s' & AS2 & NE' & PL)|(PL & DL & AU)].
    + rewrite AS2 in SP'. rewrite SP'. set (p' := mkP _ _ _ e') in *. change (mkP _ _ _ s') with (with_env p' s').
      refine (IH _ _ _ _ _ _ _ I' NE' GS _ _ NF).
      * destruct PL as [PL|PL]; [left; cbn [p' p_env]; rewrite PN, PL; reflexivity|right; idtac; first [exact PL|apply LS; exact PL]].
      * destruct M56 as [M|[M|M]]; [now left|right; left; pose proof (msg_step M) as Q; now rewrite SP in Q|right; right].
        assert (TR' : atrees (abs ents' trees' lk' (p_toks p')) = trees') by (apply abs_trees, (Forall2_len (i_ents I'))). rewrite <- TR'. rewrite <- TR in M. refine (astep_keeps AS _ M).
        intros r DR ER. rewrite (cont_rule I AS DR) in E2. rewrite ER in E2. discriminate E2.
    + rewrite AU in SP'. rewrite SP'. cbn [sim_out]. right. split; [reflexivity|]. split; [exact DL|]. assert (NP : e_params e' <> []) by (rewrite PN; destruct (e_plist (p_env p)); [contradiction|discriminate]).
      split; [exact (proj2 (asked I' NP))|]. intros c e RE. exact (late_run I' NP RE).
  - assert (D56 : {rule_of p = Some 56%N} + {rule_of p <> Some 56%N}) by (decide equality; apply N.eq_dec).
    assert (C56 : (rule_of p = Some 56%N /\ e_msg s0 <> VNull /\ e_msg (p_env p) = VNull) \/ (rule_of p = Some 56%N -> e_msg s0 = VNull \/ e_msg (p_env p) <> VNull)).
    { destruct D56 as [E|]; [|right; congruence]. destruct (msg_dec (e_msg s0)); [right; auto|]. destruct (msg_dec (e_msg (p_env p))); auto. }
    destruct C56 as [(E56 & MN & MP)|C56].
    + destruct (stop_56 I NE E56 MN MP) as (s' & -> & SP). cbn [sim_out]. right. split; [reflexivity|]. split; [exact SP|]. intros e EE.
      destruct (rule_decide I E56) as (z & DZ & RZ). destruct (step p) as [p'|c1 e1|u] eqn:ST; cbn [good] in G.
      * destruct G as (ents' & b' & trees' & lk' & lost' & I' & AS). pose proof (astep_makes AS DZ RZ) as HAS.
        pose proof (@run_explained ts0 c0 B OK0 M0 P0 n _ _ _ _ _ _ I' NF) as (a & AA & EX'). rewrite EE in EX'. destruct EX' as [(_ & _ & tl & ts & k & AC & AT)|([Q|Q] & _)]; [|discriminate Q..].
        exists tl, ts, k. split; [exact AC|]. pose proof (asteps_has AA HAS) as Q. rewrite AT in Q. destruct AC as (lo & DD & _). now rewrite (tree_56 _ DD) in Q.
      * exfalso. injection EE as -> ->. destruct G as [(_ & AA & _)|([Q|Q] & _)]; [|discriminate Q..]. unfold astep in AA. cbv zeta in AA.
        destruct (199 <=? _); [discriminate|]. destruct (rule_some E56) as (x & stk & z' & ES & LD & NFS & DE & RZ'). rewrite (abs_top I ES) in AA. destruct (Z.eqb_spec (s_state x) YYFINAL); [contradiction|].
        rewrite <- (abs_top I ES) in AA. rewrite DZ in AA. destruct (production _) as [[lhs rhs]|]; [|discriminate]. destruct (goto_of _ _); discriminate.
      * discriminate EE.
    + pose proof (near_step NE N2 C56) as LS. pose proof (step_params N2) as SP.
      destruct (step p) as [p'|c e|u] eqn:ST, (step (with_env p s)) as [q'|c' s'|u']; cbn [same_step] in LS; try contradiction.
      * cbn [good] in G. destruct G as (ents' & b' & trees' & lk' & lost' & I' & AS). destruct LS as (L1 & L2 & L3 & L4).
        assert (EQ : q' = with_env p' (p_env q')) by (destruct q', p'; cbn in *; unfold with_env; cbn; congruence). rewrite EQ.
        refine (IH _ _ _ _ _ _ _ I' L4 GS _ _ NF); [unfold early_or_live in *; now rewrite SP|].
        destruct M56 as [M|[M|M]]; [now left|right; left; pose proof (msg_step M) as Q; now rewrite ST in Q|].
        destruct D56 as [E|N56]; [destruct (C56 E) as [Q|Q]; [now left|right; left; pose proof (msg_step Q) as Q2; now rewrite ST in Q2]|].
        right; right. assert (TR' : atrees (abs ents' trees' lk' (p_toks p')) = trees') by (apply abs_trees, (Forall2_len (i_ents I'))). rewrite <- TR'. rewrite <- TR in M. refine (astep_keeps AS _ M).
        intros r DR ER. apply N56. rewrite <- ER. exact (cont_rule I AS DR).
      * destruct LS as [<- L4]. cbn [sim_out]. left. exists e. split; [reflexivity|]. split; [exact L4|]. split; [unfold early_or_live in EL; now rewrite SP|]. intros ->.
        cbn [good] in G. destruct G as [(_ & AA & tl & ts & k & AC & AT)|([Q|Q] & _)]; [|discriminate Q..]. exists tl, ts, k. split; [exact AC|]. rewrite TR in AT. destruct M56 as [M|[M|M]]; [now left|exfalso|right].
        -- apply M. destruct (i_phase I) as [EA|LT]; [exfalso|destruct LT as (? & ? & ? & _ & LT & _); exact LT]. pose proof (i_ents I) as IE. rewrite AT in IE. inversion IE as [|y ? ents' ? E1 _]; subst.
           pose proof (ea_ents EA) as FE. inversion FE as [|? ? F1 _]; subst. apply F1, (derives_input (en_tree E1)).
        -- rewrite AT in M. destruct AC as (lo & DD & _). now rewrite (tree_56 _ DD) in M.
      * left. congruence.
Qed.

(** ** The whole parse *)
Theorem yyparse_side : ends_eof ts0 -> e_next c0 = e_next s0 -> e_live c0 = e_live s0 -> e_loc c0 = e_loc s0 -> sim_out (yyparse ts0 c0) (yyparse ts0 s0).
Proof.
  intros EE EN EL EC. assert (NF : run (parse_fuel (List.length ts0)) (parse_init ts0 c0) <> PFuel) by (now destruct (yyparse_terminates c0 EE)).
  assert (I : inv ts0 c0 B (parse_init ts0 c0) [] bottom [] [] (fun _ => 0)) by (apply inv_init; [exact EE|exact H0|exact M0]).
  unfold yyparse. change (parse_init ts0 s0) with (with_env (parse_init ts0 c0) (parse_env s0)). refine (sim I _ _ _ _ NF).
  - split; [constructor; cbn; auto|]. split; [cbn; rewrite P0; reflexivity|]. left. split; [exact M0|]. repeat split.
  - intros q IQ D. split; [exact (A0 IQ)|exact D].
  - left. exact P0.
  - right. right. reflexivity.
Qed.
End Stale.
