(** Completeness of the parser: every derivation tree that respects the precedences and fits into the stack is found.
    No code of /repo. *)
From Verif Require Export Items.
From Coq Require Import ZifyBool ZifyNat ZifyN.
Local Open Scope nat_scope.
Set Implicit Arguments.
Unset Strict Implicit.

(** ** The machine with an unlimited stack *)
Definition ustep (a : astate) : aout :=
  let s := atop (a_stk a) in
  if (s =? YYFINAL)%Z then AAccept
  else match decide s (atok (a_look a)) with
  | None => AStuck
  | Some DRead => match a_toks a with t :: ts => ACont (mkA (a_stk a) (Some t) ts) | [] => AStuck end
  | Some (DShift s') => match a_look a with Some t => ACont (mkA ((s', Leaf t) :: a_stk a) None (a_toks a)) | None => AStuck end
  | Some (DReduce r) =>
    match production (Z.to_N r) with
    | None => AStuck
    | Some (lhs, rhs) =>
      let n := List.length rhs in
      let rest := skipn n (a_stk a) in
      match goto_of (atop rest) (Z.of_N lhs) with
      | Some g => ACont (mkA ((g, Node (Z.to_N r) (map snd (rev (firstn n (a_stk a))))) :: rest) (a_look a) (a_toks a))
      | None => AStuck
      end
    end
  | Some DError => ASyntax
  end.
Lemma astep_ustep a : List.length (a_stk a) < 199 -> astep a = ustep a.
Proof. intro L. unfold astep. destruct (Nat.leb_spec 199 (List.length (a_stk a))); [lia|reflexivity]. Qed.
Lemma astep_full a : 199 <= List.length (a_stk a) -> astep a = AExhausted.
Proof. intro L. unfold astep. destruct (Nat.leb_spec 199 (List.length (a_stk a))); [reflexivity|lia]. Qed.
Definition depth (a : astate) : nat := List.length (a_stk a).
(** [runs m a b]: [b] is reached from [a] and before that there are never more than [m] entries. *)
Inductive runs (m : nat) : astate -> astate -> Prop :=
| ru_refl : forall a, runs m a a
| ru_step : forall a b c, depth a <= m -> ustep a = ACont b -> runs m b c -> runs m a c.
Lemma runs_trans m a b c : runs m a b -> runs m b c -> runs m a c.
Proof. induction 1; intros; [assumption|]. eapply ru_step; eauto. Qed.
Lemma runs_one m a b : depth a <= m -> ustep a = ACont b -> runs m a b.
Proof. intros L E. eapply ru_step; [exact L|exact E|constructor]. Qed.
Lemma runs_le m n a b : m <= n -> runs m a b -> runs n a b.
Proof. intro L. induction 1; [constructor|]. eapply ru_step; eauto. lia. Qed.
Lemma runs_asteps m a b : m <= 198 -> runs m a b -> asteps a b.
Proof. intro L. induction 1; [constructor|]. eapply as_step; [|eassumption]. rewrite astep_ustep; [assumption|]. unfold depth in *. lia. Qed.
Lemma runs_exhausted m a b : runs m a b -> 199 <= depth b -> exists x, asteps a x /\ astep x = AExhausted.
Proof.
  induction 1 as [a|a b c L E R IH]; intro D.
  - exists a. split; [constructor|]. now apply astep_full.
  - destruct (le_lt_dec 199 (depth a)) as [F|F]; [exists a; split; [constructor|now apply astep_full]|].
    destruct (IH D) as (x & X1 & X2). exists x. split; [|exact X2]. eapply as_step; [|exact X1]. rewrite astep_ustep; assumption.
Qed.
Lemma runs_det m a b : runs m a b -> forall n c, runs n a c -> runs n b c \/ runs m c b.
Proof.
  induction 1 as [a|a x b L E H IH]; intros n c C; [now left|]. inversion C as [|? y ? L2 E2 H2]; subst.
  - right. eapply ru_step; eassumption.
  - rewrite E in E2. injection E2 as <-. eauto.
Qed.
Lemma runs_end m n a b c : runs m a b -> runs n a c -> (forall x, ustep b <> ACont x) -> (forall x, ustep c <> ACont x) -> b = c.
Proof.
  intros H1 H2 N1 N2. destruct (runs_det H1 H2) as [H|H]; inversion H; subst; try reflexivity; exfalso; [eapply N1|eapply N2]; eassumption.
Qed.

(** ** Single actions *)
Definition pend (a : astate) : list token := alook a ++ a_toks a.
Lemma decide_None s d : decide s None = Some d -> d <> DRead -> forall t, decide s t = Some d.
Proof.
  unfold decide. destruct (get yypact s) as [p|]; [|discriminate]. cbn [obind]. destruct (p =? YYPACT_NINF)%Z; [auto|]. intros E N. injection E as <-. now destruct N.
Qed.
Lemma decide_Some s t d : decide s (Some t) = Some d -> decide s None = Some DRead \/ decide s None = Some d.
Proof. unfold decide. destruct (get yypact s) as [p|]; [|discriminate]. cbn [obind]. destruct (p =? YYPACT_NINF)%Z; auto. Qed.
Lemma default_no_shift s s' : default_of s <> Some (DShift s').
Proof. unfold default_of. destruct (get yydefact s) as [d|]; [|discriminate]. cbn [obind]. destruct (d =? 0)%Z; discriminate. Qed.
Lemma decide_None_shift s s' : decide s None <> Some (DShift s').
Proof. unfold decide. destruct (get yypact s) as [p|]; [|discriminate]. cbn [obind]. destruct (p =? YYPACT_NINF)%Z; [apply default_no_shift|discriminate]. Qed.
Lemma decide_read s t : decide s (Some t) <> Some DRead.
Proof.
  assert (D : forall s, default_of s <> Some DRead) by (intro; unfold default_of; destruct (get yydefact _) as [d|]; [|discriminate]; cbn [obind]; destruct (d =? 0)%Z; discriminate).
  unfold decide. destruct (get yypact s) as [p|]; [|discriminate]. cbn [obind]. destruct (p =? YYPACT_NINF)%Z; [apply D|]. cbv zeta. destruct (_ || _)%bool; [apply D|].
  destruct (get yycheck _); [|discriminate]. cbn [obind]. destruct (negb _); [apply D|]. destruct (get yytable _) as [y|]; [|discriminate]. cbn [obind]. destruct (y <=? 0)%Z; [destruct (y =? YYTABLE_NINF)%Z; discriminate|discriminate].
Qed.
Lemma u_shift c t rest s' : pend c = t :: rest -> atop (a_stk c) <> YYFINAL -> decide (atop (a_stk c)) (Some (Z.of_N (sym_of t))) = Some (DShift s') ->
  runs (depth c) c (mkA ((s', Leaf t) :: a_stk c) None rest).
Proof.
  destruct c as [stk lk toks]. unfold pend, alook. cbn [a_stk a_look a_toks]. intros P F D. assert (FF : (atop stk =? YYFINAL)%Z = false) by lia.
  destruct lk as [t0|]; cbn [app] in P.
  - injection P as -> ->. apply runs_one; [lia|]. unfold ustep. cbn [a_stk a_look a_toks atok]. rewrite FF, D. reflexivity.
  - subst toks. destruct (decide_Some D) as [E|E]; [|now apply decide_None_shift in E]. eapply ru_step; [lia| |apply runs_one].
    + unfold ustep. cbn [a_stk a_look a_toks atok]. rewrite FF, E. reflexivity.
    + unfold depth. cbn [a_stk]. lia.
    + unfold ustep. cbn [a_stk a_look a_toks atok]. rewrite FF, D. reflexivity.
Qed.
Lemma u_reduce c t rest r lhs rhs g : pend c = t :: rest -> atop (a_stk c) <> YYFINAL -> decide (atop (a_stk c)) (Some (Z.of_N (sym_of t))) = Some (DReduce (Z.of_N r)) ->
  production r = Some (lhs, rhs) -> goto_of (atop (skipn (List.length rhs) (a_stk c))) (Z.of_N lhs) = Some g ->
  exists c', runs (depth c) c c' /\ a_stk c' = (g, Node r (map snd (rev (firstn (List.length rhs) (a_stk c))))) :: skipn (List.length rhs) (a_stk c) /\ pend c' = t :: rest.
Proof.
  destruct c as [stk lk toks]. unfold pend, alook. cbn [a_stk a_look a_toks]. intros P F D PR G. assert (FF : (atop stk =? YYFINAL)%Z = false) by lia.
  destruct lk as [t0|]; cbn [app] in P.
  - injection P as -> ->. eexists. split; [|split]; [apply runs_one; [lia|]| |].
    + unfold ustep. cbn [a_stk a_look a_toks atok]. rewrite FF, D, N2Z.id, PR. cbv zeta. rewrite G. reflexivity.
    + reflexivity.
    + reflexivity.
  - subst toks. destruct (decide_Some D) as [E|E].
    + eexists. split; [eapply ru_step; [lia| |apply runs_one]|split].
      * unfold ustep. cbn [a_stk a_look a_toks atok]. rewrite FF, E. reflexivity.
      * unfold depth. cbn [a_stk]. lia.
      * unfold ustep. cbn [a_stk a_look a_toks atok]. rewrite FF, D, N2Z.id, PR. cbv zeta. rewrite G. reflexivity.
      * reflexivity.
      * reflexivity.
    + eexists. split; [|split]; [apply runs_one; [lia|]| |].
      * unfold ustep. cbn [a_stk a_look a_toks atok]. rewrite FF, E, N2Z.id, PR. cbv zeta. rewrite G. reflexivity.
      * reflexivity.
      * reflexivity.
Qed.

(** ** Trees *)
Lemma tree_list_ind (P : tree -> Prop) : (forall t, P (Leaf t)) -> (forall r ts, Forall P ts -> P (Node r ts)) -> forall t, P t.
Proof.
  intros HL HN. fix IH 1. intros [t|r ts]; [apply HL|apply HN]. induction ts as [|u us IHs]; constructor; [apply IH|exact IHs].
Qed.
Lemma respects_node r ts nx : respects (Node r ts) nx = may_end r nx && tail_ok r ts && respects_all ts nx.
Proof. cbn [respects]. f_equal. induction ts as [|u us IH]; [reflexivity|]. cbn [respects_all]. now rewrite IH. Qed.
Lemma need_node r ts : need (Node r ts) = need_all ts 0.
Proof.
  cbn [need]. assert (E : forall ts i, (fix go (ts : list tree) (i : nat) : nat := match ts with [] => 1 | u :: us => Nat.max (i + need u) (go us (S i)) end) ts i = need_all ts i).
  { clear. induction ts as [|u us IH]; intro i; [reflexivity|]. cbn [need_all]. now rewrite IH. }
  apply E.
Qed.
Lemma need_all_pos ts i : 1 <= need_all ts i.
Proof. revert i. induction ts as [|u us IH]; intro i; cbn [need_all]; [lia|]. specialize (IH (S i)). lia. Qed.
Lemma need_pos t : 1 <= need t.
Proof. destruct t as [t|r ts]; [cbn; lia|]. rewrite need_node. apply need_all_pos. Qed.
Lemma derives_leaf X k : derives X (Leaf k) -> X = sym_of k.
Proof. inversion 1. reflexivity. Qed.
Lemma derives_term X t : derives X t -> terminal X = true -> exists k, t = Leaf k /\ X = sym_of k.
Proof. intros D T. destruct D as [k|r lhs rhs ts P D]; [eauto|]. destruct (first_rule P) as (F & _). congruence. Qed.
Lemma derives_nonterm X t : derives X t -> terminal X = false -> exists r rhs ts, t = Node r ts /\ production r = Some (X, rhs) /\ derives_list rhs ts.
Proof. intros D T. destruct D as [k|r lhs rhs ts P D]; [rewrite sym_terminal in T; discriminate|]. eauto 6. Qed.
Lemma sym_small t : (sym_of t < 199)%N.
Proof. pose proof (sym_terminal t) as H. unfold terminal in H. lia. Qed.

(** ** Feeding a tree *)
(** The context: the productions in progress in the current state; [r], [i] is one of them, and if the tree is the last symbol of it
    then its left edge may extend it. *)
Definition in_context (s : Z) (edge : list N) : Prop :=
  s = 0%Z \/ exists r i lhs rhs, 0 < i /\ item s r i <> None /\ production r = Some (lhs, rhs) /\ (S i = List.length rhs -> forallb (may_extend r) edge = true).
Lemma in_context_incl s e e' : in_context s e -> incl e' e -> in_context s e'.
Proof.
  intros [->|(r & i & lhs & rhs & A & B & C & D)] I; [now left|right]. exists r, i, lhs, rhs. repeat split; auto. intro E. specialize (D E). rewrite forallb_forall in *. auto.
Qed.
Lemma second_context s X a r L s1 e : second_ok s X a r L = true -> in_context s (a :: e) ->
  (if terminal X then match decide s (Some (Z.of_N X)) with Some (DShift s1) => Some s1 | _ => None end else goto_of s (Z.of_N X)) = Some s1 -> shift_to s1 a r 2 L = true.
Proof.
  unfold second_ok. intros S C E. rewrite E in S. apply orb_true_iff in S as [S|S]; [exact S|]. exfalso. apply andb_true_iff in S as [S1 S2].
  destruct C as [->|(q & i & lhs & rhs & I0 & IT & P & M)]; [discriminate S1|]. destruct (item s q i) as [L'|] eqn:Q; [|now destruct IT]. destruct (item_In Q) as (j & In0 & _).
  rewrite forallb_forall in S2. specialize (S2 _ In0). cbn [fst snd] in S2. rewrite P in S2. apply orb_true_iff in S2 as [S2|S2]; [lia|]. apply andb_true_iff in S2 as [S2 S3].
  rewrite forallb_forall in M. specialize (M ltac:(lia) a (or_introl eq_refl)). rewrite M in S3. discriminate.
Qed.
(** Feeding a tree with root production [r]. *)
Definition feeds (t : tree) : Prop :=
  match t with
  | Leaf _ => True
  | Node r ts =>
    forall c L lhs rhs k rest g, production r = Some (lhs, rhs) -> derives_list rhs ts -> r <> 1%N -> item (atop (a_stk c)) r 0 = Some L -> N.testbit L (sym_of k) = true ->
      pend c = yields ts ++ k :: rest -> in_context (atop (a_stk c)) (left_edge (Node r ts)) -> respects (Node r ts) (sym_of k) = true ->
      goto_of (atop (a_stk c)) (Z.of_N lhs) = Some g ->
      exists mid c', runs (depth c + need (Node r ts)) c mid /\ depth mid = depth c + need (Node r ts) /\ runs (depth c + need (Node r ts)) mid c' /\
        a_stk c' = (g, Node r ts) :: a_stk c /\ pend c' = k :: rest
  end.
(** One symbol: leaf or tree. *)
Lemma feed_one u X c r i L lhs rhs Xs k rest : feeds u -> derives X u -> production r = Some (lhs, rhs) -> skipn i rhs = X :: Xs -> item (atop (a_stk c)) r i = Some L ->
  (terminal X = true -> shift_to (atop (a_stk c)) X r (S i) L = true) ->
  N.testbit (seq_first Xs L) (sym_of k) = true -> pend c = yield u ++ k :: rest -> in_context (atop (a_stk c)) (left_edge u) -> respects u (sym_of k) = true ->
  exists mid c' s' L', runs (depth c + need u) c mid /\ depth mid = depth c + need u /\ runs (depth c + need u) mid c' /\ a_stk c' = (s', u) :: a_stk c /\ pend c' = k :: rest /\
    item s' r (S i) = Some L' /\ (forall a, N.testbit L a = true -> N.testbit L' a = true) /\
    (if terminal X then match decide (atop (a_stk c)) (Some (Z.of_N X)) with Some (DShift s1) => Some s1 | _ => None end else goto_of (atop (a_stk c)) (Z.of_N X)) = Some s'.
Proof.
  intros F D P E I SH T PD CX RS. destruct (terminal X) eqn:TX.
  - destruct (derives_term D TX) as (t & -> & ->). destruct (shift_to_spec (SH eq_refl)) as (NF & s' & L' & DS & I' & SB).
    cbn [yield] in PD. pose proof (@u_shift c t (k :: rest) s' PD NF DS) as R. cbn [need].
    exists (mkA ((s', Leaf t) :: a_stk c) None (k :: rest)), (mkA ((s', Leaf t) :: a_stk c) None (k :: rest)), s', L'.
    split; [eapply runs_le; [|exact R]; lia|]. split; [unfold depth; cbn [a_stk List.length]; lia|]. split; [constructor|]. split; [reflexivity|]. split; [reflexivity|].
    split; [exact I'|]. split; [exact SB|]. now rewrite DS.
  - destruct (derives_nonterm D TX) as (q & rhs' & ts & -> & Q & DL). destruct (goto_to_spec (item_goto I P E TX)) as (g & L' & G & I' & SB).
    destruct (item_close I P E Q) as (Q1 & L0 & I0 & S0). cbn [feeds] in F.
    destruct (F c L0 X rhs' k rest g Q DL Q1 I0 (S0 _ T) PD CX RS G) as (mid & c' & R1 & DM & R2 & ST & PE).
    exists mid, c', g, L'. repeat (split; [assumption|]). exact G.
Qed.
Lemma skipn_cons A (l : list A) i x r : skipn i l = x :: r -> skipn (S i) l = r.
Proof. revert i. induction l as [|y l IH]; intros [|i] E; cbn [skipn] in *; try discriminate; [now injection E|]. now apply IH. Qed.
Lemma yields_first us k rest : exists k' rest', yields us ++ k :: rest = k' :: rest' /\ sym_of k' = first_of us (sym_of k).
Proof. unfold first_of. destruct (yields us) as [|k' l]; cbn [app]; eauto. Qed.
Lemma tail_ok_cons r u us : us <> [] -> tail_ok r (u :: us) = tail_ok r us.
Proof. intro N. unfold tail_ok. cbn [rev]. destruct (rev us) as [|x l] eqn:E; [apply (f_equal (@rev _)) in E; rewrite rev_involutive in E; now destruct N|reflexivity]. Qed.
Lemma derives_cons Xs u us : derives_list Xs (u :: us) -> exists X Ys, Xs = X :: Ys /\ derives X u /\ derives_list Ys us.
Proof. inversion 1; subst. eauto. Qed.
Lemma derives_cons' a Ys us : derives_list (a :: Ys) us -> terminal a = true -> exists k us', us = Leaf k :: us' /\ a = sym_of k.
Proof. inversion 1 as [|? ? ? ? D1 D2]; subst. intro T. destruct (derives_term D1 T) as (k & -> & ->). eauto. Qed.
Lemma derives_length Xs ts : derives_list Xs ts -> List.length Xs = List.length ts.
Proof. induction 1; cbn [List.length]; [reflexivity|lia]. Qed.
(** The symbols from position [i] >= 1 on. *)
Lemma feed_list r lhs rhs ts : production r = Some (lhs, rhs) -> Forall feeds ts -> forall i Xs c L k rest, 0 < i -> skipn i rhs = Xs -> derives_list Xs ts ->
  item (atop (a_stk c)) r i = Some L -> N.testbit L (sym_of k) = true -> pend c = yields ts ++ k :: rest -> respects_all ts (sym_of k) = true -> tail_ok r ts = true ->
  (i = 1 -> forall a Ys, Xs = a :: Ys -> terminal a = true -> exists L0, N.testbit L0 (sym_of k) = true /\ shift_to (atop (a_stk c)) a r 2 L0 = true) -> i <= depth c ->
  exists c' news s' L', a_stk c' = news ++ a_stk c /\ map snd news = rev ts /\ pend c' = k :: rest /\ s' = atop (a_stk c') /\ item s' r (i + List.length ts) = Some L' /\ N.testbit L' (sym_of k) = true /\
    runs (depth c - i + need_all ts i) c c' /\
    (ts = [] \/ exists mid, runs (depth c - i + need_all ts i) c mid /\ depth mid = depth c - i + need_all ts i /\ runs (depth c - i + need_all ts i) mid c').
Proof.
  intros P F. induction F as [|u us FU F IH]; intros i Xs c L k rest I0 E D IT TB PD RS TL SEC DI.
  - exists c, [], (atop (a_stk c)), L. cbn [app map rev List.length need_all]. rewrite Nat.add_0_r. repeat split; auto; constructor.
  - destruct (derives_cons D) as (X & Ys & EX & D1 & D2). rewrite EX in E. clear D. cbn [yields flat_map] in PD. fold (yields us) in PD. rewrite <- app_assoc in PD. destruct (yields_first us k rest) as (k' & rest' & EK & SK). rewrite EK in PD.
    cbn [respects_all] in RS. apply andb_true_iff in RS as [RS1 RS2]. rewrite <- SK in RS1.
    assert (SH : forall a, terminal X = true -> X = a -> exists L0, N.testbit L0 (sym_of k) = true /\ shift_to (atop (a_stk c)) X r (S i) L0 = true /\ (i <> 1 -> L0 = L)).
    { intros a T _. destruct (Nat.eq_dec i 1) as [->|N1]; [destruct (SEC eq_refl X Ys ltac:(congruence) T) as (L0 & A & B); exists L0; repeat split; auto; congruence|].
      exists L. split; [exact TB|]. split; [|auto]. eapply item_shift; eassumption. }
    assert (CX : in_context (atop (a_stk c)) (left_edge u)).
    { right. exists r, i, lhs, rhs. split; [exact I0|]. split; [rewrite IT; discriminate|]. split; [exact P|]. intro EL.
      assert (us = []). { assert (LS : List.length (skipn i rhs) = 1) by (rewrite skipn_length; lia). rewrite E in LS. cbn [List.length] in LS. destruct Ys; [|discriminate LS]. now inversion D2. }
      subst us. exact TL. }
    (* the first symbol *)
    assert (ST : exists mid c1 s' L', runs (depth c + need u) c mid /\ depth mid = depth c + need u /\ runs (depth c + need u) mid c1 /\ a_stk c1 = (s', u) :: a_stk c /\ pend c1 = k' :: rest' /\
       item s' r (S i) = Some L' /\ N.testbit L' (sym_of k) = true).
    { destruct (terminal X) eqn:TX.
      - destruct (SH X eq_refl eq_refl) as (L0 & T0 & S0 & _). destruct (derives_term D1 TX) as (t & -> & ->). destruct (shift_to_spec S0) as (NF & s' & L' & DS & I' & SB).
        cbn [yield app] in PD. pose proof (@u_shift c t (k' :: rest') s' PD NF DS) as R. cbn [need].
        exists (mkA ((s', Leaf t) :: a_stk c) None (k' :: rest')), (mkA ((s', Leaf t) :: a_stk c) None (k' :: rest')), s', L'.
        split; [eapply runs_le; [|exact R]; lia|]. split; [unfold depth; cbn [a_stk List.length]; lia|]. split; [constructor|]. repeat (split; [first [reflexivity|assumption]|]). auto.
      - assert (TB' : N.testbit (seq_first Ys L) (sym_of k') = true) by (rewrite SK; eapply derives_list_first; eassumption).
        destruct (@feed_one u X c r i L lhs rhs Ys k' rest' FU D1 P E IT ltac:(congruence) TB' PD CX RS1) as (mid & c1 & s' & L' & A1 & A2 & A3 & A4 & A5 & A6 & A7 & _).
        exists mid, c1, s', L'. repeat (split; [assumption|]). auto. }
    destruct ST as (mid & c1 & s' & L' & R1 & DM & R2 & SK1 & PE & I1 & TB1).
    assert (DC : depth c1 = S (depth c)) by (unfold depth; rewrite SK1; reflexivity).
    destruct (IH (S i) Ys c1 L' k rest) as (c' & news & s2 & L2 & B1 & B2 & B3 & B4 & B5 & B6 & B7 & B8).
    + lia.
    + eapply skipn_cons. exact E.
    + exact D2.
    + rewrite SK1. exact I1.
    + exact TB1.
    + now rewrite EK.
    + exact RS2.
    + destruct us; [reflexivity|]. rewrite <- TL. symmetry. apply tail_ok_cons. discriminate.
    + lia.
    + lia.
    + pose proof (need_pos u) as NP. replace (depth c1 - S i) with (depth c - i) in * by lia. replace (depth c + need u) with (depth c - i + (i + need u)) in * by lia.
      pose proof (need_all_pos us (S i)) as NP2. cbn [need_all]. set (m := Nat.max (i + need u) (need_all us (S i))).
      assert (RA : runs (depth c - i + m) c mid) by (eapply runs_le; [|exact R1]; lia). assert (RB : runs (depth c - i + m) mid c1) by (eapply runs_le; [|exact R2]; lia).
      assert (RC : runs (depth c - i + m) c1 c') by (eapply runs_le; [|exact B7]; lia).
      exists c', (news ++ [(s', u)]), s2, L2. split; [rewrite B1, SK1, <- app_assoc; reflexivity|]. split; [rewrite map_app, B2; reflexivity|]. split; [exact B3|]. split; [exact B4|].
      cbn [List.length]. split; [replace (i + S (List.length us)) with (S i + List.length us) by lia; exact B5|]. split; [exact B6|].
      split; [eapply runs_trans; [exact RA|]; eapply runs_trans; eassumption|]. right.
      destruct (le_lt_dec (need_all us (S i)) (i + need u)) as [LE|LT].
      * exists mid. split; [exact RA|]. split; [lia|]. eapply runs_trans; eassumption.
      * destruct B8 as [->|(mid2 & M1 & M2 & M3)]; [cbn [need_all] in LT; lia|]. exists mid2. split; [eapply runs_trans; [exact RA|]; eapply runs_trans; [exact RB|]; eapply runs_le; [|exact M1]; lia|].
        split; [lia|]. eapply runs_le; [|exact M3]. lia.
Qed.

Lemma feed_all t : feeds t.
Proof.
  induction t as [k|r ts F] using tree_list_ind; [exact I|]. intros c L lhs rhs k rest g P D R1 IT TB PD CX RS G.
  rewrite respects_node in RS. apply andb_true_iff in RS as [RS RA]. apply andb_true_iff in RS as [ME TL]. rewrite need_node. set (s := atop (a_stk c)) in *.
  assert (FIN : exists mid c', runs (depth c + need_all ts 0) c mid /\ (ts = [] \/ depth mid = depth c + need_all ts 0) /\ runs (depth c + need_all ts 0) mid c' /\
     exists news L', a_stk c' = news ++ a_stk c /\ map snd news = rev ts /\ pend c' = k :: rest /\ item (atop (a_stk c')) r (List.length rhs) = Some L' /\ N.testbit L' (sym_of k) = true).
  { destruct F as [|u us FU F].
    - inversion D; subst. cbn [yields flat_map app] in PD. exists c, c. repeat split; try constructor; auto. exists [], L. repeat split; auto.
    - destruct (derives_cons D) as (X & Ys & -> & D1 & D2). cbn [yields flat_map] in PD. fold (yields us) in PD. rewrite <- app_assoc in PD. destruct (yields_first us k rest) as (k' & rest' & EK & SK). rewrite EK in PD.
      cbn [respects_all] in RA. apply andb_true_iff in RA as [RS1 RS2]. rewrite <- SK in RS1.
      assert (TB' : N.testbit (seq_first Ys L) (sym_of k') = true) by (rewrite SK; eapply derives_list_first; eassumption).
      assert (CU : in_context s (left_edge u)). { eapply in_context_incl; [exact CX|]. cbn [left_edge]. apply incl_appr, incl_refl. }
      destruct (@feed_one u X c r 0 L lhs (X :: Ys) Ys k' rest' FU D1 P eq_refl IT) as (mid & c1 & s' & L' & A1 & A2 & A3 & A4 & A5 & A6 & A7 & A8); auto.
      { intro TX. eapply item_shift; try eassumption; [reflexivity|discriminate]. }
      assert (DC : depth c1 = S (depth c)) by (unfold depth; rewrite A4; reflexivity).
      destruct (@feed_list r lhs (X :: Ys) us P F 1 Ys c1 L' k rest) as (c' & news & s2 & L2 & B1 & B2 & B3 & B4 & B5 & B6 & B7 & B8); auto.
      + rewrite A4. exact A6.
      + now rewrite EK.
      + destruct us; [reflexivity|]. rewrite <- TL. symmetry. apply tail_ok_cons. discriminate.
      + intros _ a Zs -> TA. exists L. split; [exact TB|]. rewrite A4. cbn [atop]. eapply second_context; [eapply item_second; eassumption| |exact A8].
        destruct (derives_cons' D2) as (ka & us' & -> & ->); [exact TA|]. exact CX.
      + lia.
      + pose proof (need_pos u) as NP. replace (depth c1 - 1) with (depth c) in * by lia. pose proof (need_all_pos us 1) as NP2. cbn [need_all Nat.add]. set (m := Nat.max (need u) (need_all us 1)).
        assert (X1 : runs (depth c + m) c mid) by (eapply runs_le; [|exact A1]; lia). assert (X2 : runs (depth c + m) mid c1) by (eapply runs_le; [|exact A3]; lia).
        assert (X3 : runs (depth c + m) c1 c') by (eapply runs_le; [|exact B7]; lia).
        assert (FF : exists news L', a_stk c' = news ++ a_stk c /\ map snd news = rev (u :: us) /\ pend c' = k :: rest /\ item (atop (a_stk c')) r (List.length (X :: Ys)) = Some L' /\ N.testbit L' (sym_of k) = true).
        { exists (news ++ [(s', u)]), L2. split; [rewrite B1, A4, <- app_assoc; reflexivity|]. split; [rewrite map_app, B2; reflexivity|]. split; [exact B3|]. split; [|exact B6].
          cbn [List.length]. rewrite (derives_length D2), <- B4. exact B5. }
        destruct (le_lt_dec (need_all us 1) (need u)) as [LE|LT].
        * exists mid, c'. split; [exact X1|]. split; [right; lia|]. split; [eapply runs_trans; eassumption|exact FF].
        * destruct B8 as [->|(mid2 & M1 & M2 & M3)]; [cbn [need_all] in LT; lia|]. exists mid2, c'. split; [eapply runs_trans; [exact X1|]; eapply runs_trans; [exact X2|]; eapply runs_le; [|exact M1]; lia|].
          split; [right; lia|]. split; [|exact FF]. eapply runs_le; [|exact M3]. lia. }
  destruct FIN as (mid & c' & X1 & X2 & X3 & news & L' & S1 & S2 & S3 & S4 & S5).
  assert (LN : List.length news = List.length rhs). { apply (f_equal (@List.length _)) in S2. rewrite map_length, rev_length in S2. rewrite (derives_length D). exact S2. }
  destruct (item_end S4 P (nx := sym_of k)) as (_ & NF & DR); auto; [apply skipn_all|apply sym_small|].
  assert (SK : skipn (List.length rhs) (a_stk c') = a_stk c) by (rewrite S1, <- LN, skipn_app, skipn_all, Nat.sub_diag; reflexivity).
  assert (FS : firstn (List.length rhs) (a_stk c') = news) by (rewrite S1, <- LN, firstn_app, firstn_all, Nat.sub_diag; cbn [firstn]; apply app_nil_r).
  destruct (@u_reduce c' k rest r lhs rhs g S3 NF DR P) as (c2 & R2 & ST & PE); [rewrite SK; exact G|]. rewrite SK, FS, map_rev, S2, rev_involutive in ST.
  assert (DC : depth c' <= depth c + need_all ts 0).
  { unfold depth. rewrite S1, app_length. apply (f_equal (@List.length _)) in S2. rewrite map_length, rev_length in S2. rewrite S2.
    assert (forall ts i, List.length ts = 0 \/ i + List.length ts <= need_all ts i) as Q. { clear. induction ts as [|u us IH]; intro i; [left; reflexivity|right]. cbn [need_all List.length]. pose proof (need_pos u). destruct (IH (S i)); lia. }
    destruct (Q ts 0); lia. }
  assert (X4 : runs (depth c + need_all ts 0) c' c2) by (eapply runs_le; [|exact R2]; exact DC).
  destruct X2 as [->|X2].
  - exists c2, c2. split; [eapply runs_trans; [exact X1|]; eapply runs_trans; eassumption|]. split; [unfold depth; rewrite ST; cbn [List.length need_all]; lia|]. split; [constructor|]. auto.
  - exists mid, c2. split; [exact X1|]. split; [exact X2|]. split; [eapply runs_trans; eassumption|]. auto.
Qed.

(** ** Whole inputs *)
Lemma accept_item : exists L, item 0 1 0 = Some L. Proof. eexists. vm_compute. reflexivity. Qed.
Lemma accept_goto : goto_of 0 (Z.of_N S_input) = Some 19%Z. Proof. vm_compute. reflexivity. Qed.
Lemma accept_shift : decide 19 (Some 0%Z) = Some (DShift 69). Proof. vm_compute. reflexivity. Qed.
Lemma production_1 : production 1 = Some (S_accept_, [S_input; S_END_]). Proof. vm_compute. reflexivity. Qed.
Theorem input_run T k : derives S_input T -> sym_of k = 0%N -> respects T 0 = true ->
  exists mid a, runs (need T) (astart (yield T ++ [k])) mid /\ depth mid = need T /\ runs (need T) mid a /\ ustep a = AAccept /\ atrees a = [T; Leaf k] /\ depth a = 2.
Proof.
  intros D K R. destruct (derives_nonterm D eq_refl) as (r & rhs & ts & -> & P & DL). destruct accept_item as (L & IT).
  destruct (item_close (s := 0%Z) IT production_1 (A := S_input) (rest := [S_END_]) eq_refl P) as (R1 & L' & I' & SB).
  assert (TB : N.testbit (seq_first [S_END_] L) (sym_of k) = true) by (rewrite K; vm_compute; reflexivity).
  rewrite <- K in R. destruct (@feed_all (Node r ts) (astart (yield (Node r ts) ++ [k])) L' S_input rhs k [] 19%Z P DL R1 I' (SB _ TB) eq_refl (or_introl eq_refl) R accept_goto)
    as (mid & c' & X1 & X2 & X3 & ST & PE). set (c := astart (yield (Node r ts) ++ [k])) in *. change (depth c) with 0 in *. cbn [Nat.add] in *.
  change (a_stk c) with (@nil (Z * tree)) in ST.
  assert (DS : decide (atop (a_stk c')) (Some (Z.of_N (sym_of k))) = Some (DShift 69)) by (rewrite ST, K; exact accept_shift).
  assert (NF : atop (a_stk c') <> YYFINAL) by (rewrite ST; discriminate). pose proof (u_shift PE NF DS) as X4. rewrite ST in X4.
  exists mid, (mkA [(69%Z, Leaf k); (19%Z, Node r ts)] None []). split; [exact X1|]. split; [exact X2|]. split; [|repeat split; reflexivity].
  eapply runs_trans; [exact X3|]. eapply runs_le; [|exact X4]. unfold depth. rewrite ST. cbn [List.length]. apply need_pos.
Qed.
