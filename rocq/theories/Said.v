(** Phrases without their trees: what a grammar symbol can say.  No code of /repo. *)
From Verif Require Export Phrase Part Expr.
From Coq Require Import ZifyBool ZifyNat ZifyN.
Local Open Scope nat_scope.
Set Implicit Arguments.
Unset Strict Implicit.

(** Some derivation tree of [X] has the tokens [l]; with [k] parameters before it denotes [v], [k'] parameters then; see [phrase]. *)
Definition said (X : N) (l : toks) (k : nat) (v : val) (k' L D m : nat) : Prop := exists t, phrase X l k v k' L D m t.
(** Sequences.  [D]: level of the left edge of the first element; [R]: of the last element. *)
Inductive saids (L D R : nat) : list N -> toks -> nat -> list val -> nat -> nat -> nat -> Prop :=
| sd_nil : forall k i, saids L D R [] [] k [] k i 1
| sd_cons : forall X Xs l l' k v k1 vs k' i m m' Lt Dt, said X l k v k1 Lt Dt m -> saids L D R Xs l' k1 vs k' (S i) m' ->
    match l' with [] => L <= Lt | (c, _) :: _ => ends Lt (sym_of_code c) = true end ->
    match i with O => D <= Dt | _ => True end ->
    match Xs with [] => R <= Dt | _ => True end ->
    saids L D R (X :: Xs) (l ++ l') k (v :: vs) k' i (Nat.max (i + m) m').
Definition edge2 (D : nat) (rhs : list N) : bool := match rhs with _ :: X :: _ => negb (terminal X) || edge D X | _ => true end.
Lemma derives_leaf X k : derives X (Leaf k) -> X = sym_of k /\ terminal X = true.
Proof. intros D. inversion D; subst. split; [reflexivity|]. apply sym_terminal. Qed.
Lemma tail_last r ts : (forall u, hd_error (rev ts) = Some u -> forallb (may_extend r) (left_edge u) = true) -> tail_ok r ts = true.
Proof. unfold tail_ok. destruct (rev ts) as [|u ?]; [reflexivity|]. intros H. now apply H. Qed.
Lemma saids_phrases L D R Xs l k vs k' i m : saids L D R Xs l k vs k' i m -> exists ts, phrases L Xs l k vs k' i m ts /\
  (i = 0 -> match ts with [] => True | u :: _ => forallb (edge D) (left_edge u) = true end) /\ (forall u, hd_error (rev ts) = Some u -> forallb (edge R) (left_edge u) = true).
Proof.
  induction 1 as [k i|X Xs l l' k v k1 vs k' i m m' Lt Dt [t PT] SD (ts & PS & A & B) C1 C2 C3].
  - exists []. split; [constructor|]. split; [auto|]. cbn. discriminate.
  - exists (t :: ts). split; [econstructor; eassumption|]. split.
    + intros ->. pose proof (ph_edge PT) as E. rewrite forallb_forall in *. intros x I. eapply edge_mono; [exact C2|]. auto.
    + intros u. destruct Xs as [|Y Ys].
      * inversion SD; subst. inversion PS; subst. cbn. intros E; injection E as <-. pose proof (ph_edge PT) as E. rewrite forallb_forall in *. intros x I. eapply edge_mono; [exact C3|]. auto.
      * destruct ts as [|t2 ts]; [inversion PS|]. cbn [rev] in *. intros E. apply B. destruct (rev ts ++ [t2])%list eqn:Q; [destruct (rev ts); discriminate|]. exact E.
Qed.
Lemma strength_plain r : is_operator r = false -> strength r = 12.
Proof.
  intros O. unfold is_operator, operators in O. cbn [existsb] in O.
  repeat match goal with H : (_ || _)%bool = false |- _ => apply orb_false_iff in H as [?H H] end.
  unfold strength. repeat match goal with H : N.eqb r _ = false |- _ => apply N.eqb_neq in H end. destruct r as [|p]; [reflexivity|]. do 8 (destruct p as [p|p|]; try reflexivity; try congruence).
Qed.
Definition last_level (r : N) : nat := if is_operator r then S (extent r) else 0.
Lemma said_rule r L D X rhs l k vs k1 m v : production r = Some (X, rhs) -> saids L D (last_level r) rhs l k vs k1 0 m -> asem r k1 vs = Some v ->
  N.eqb r 298 = false -> L <= strength r -> edge2 D rhs = true -> said X l k v k1 L D m.
Proof.
  intros P SD A N298 C1 C2. destruct (saids_phrases SD) as (ts & PS & HE & TE). exists (Node r ts). eapply phrase_node; try eassumption.
  - now apply N.eqb_neq.
  - apply tail_last. intros u HU. specialize (TE u HU). unfold last_level in TE. rewrite forallb_forall in *. intros x I. eapply may_extend_edge; [exact (TE x I)|].
    intros O. rewrite O. lia.
  - specialize (HE eq_refl). destruct ts as [|u us]; [reflexivity|]. apply left_edge_node; [exact HE|]. destruct us as [|[tk|] us]; auto.
    destruct (phrases_ok PS) as (D0 & _). inversion D0 as [|? ? ? ? D1 D2]; subst. inversion D2 as [|? ? ? ? D3 D4]; subst. destruct (derives_leaf D3) as (-> & T).
    unfold edge2 in C2. rewrite T in C2. exact C2.
Qed.
Lemma edge2_le D0 D rhs : D <= D0 -> edge2 D0 rhs = true -> edge2 D rhs = true.
Proof. intros LE. unfold edge2. destruct rhs as [|? [|X ?]]; auto. destruct (terminal X); cbn [negb orb]; auto. now apply edge_mono. Qed.
Lemma said_eq X l k v k1 L D m l' v' k' L' D' m' : said X l k v k1 L D m -> l = l' -> v = v' -> k1 = k' -> L' <= L -> D' <= D -> m <= m' -> said X l' k v' k' L' D' m'.
Proof. intros [t P] -> -> -> LL DD MM. exists t. eapply phrase_weaken; eassumption. Qed.
Lemma said_leaf c k : said (sym_of_code (fst c)) [c] k (tok_val (snd c)) k 12 12 1.
Proof. exists (Leaf (mk c)). apply phrase_leaf. Qed.
Lemma said_tok X c k : sym_of_code (fst c) = X -> said X [c] k (tok_val (snd c)) k 12 12 1.
Proof. intros <-. apply said_leaf. Qed.
Lemma said_param k : said S_param_expr [K 63] k (expr kExprParameter [(F_ival, VInt (Z.of_nat k)); (F_ival2, VInt (Z.of_nat k))]) (S k) 12 12 1.
Proof.
  exists (Node 298 [Leaf (mk (K 63))]). constructor; try reflexivity.
  apply (@wf_derives (Node 298 [Leaf (mk (K 63))])). vm_compute. reflexivity.
Qed.
(** The keyword or punctuation token of a terminal symbol. *)
Definition code_of (X : N) : Z := match find (fun c => N.eqb (sym_of_code c) X) (map Z.of_nat (seq 1 500)) with Some c => c | None => 0%Z end.

(** ** Tactics: one production at a time *)
Ltac keyword X := let b := eval vm_compute in (terminal X && negb (existsb (N.eqb X) [S_IDENTIFIER; S_STRING; S_INTVAL; S_FLOATVAL])) in b.
Lemma next_12 (L : nat) (l : toks) : L <= 12 -> match l with [] => L <= 12 | (c, _) :: _ => ends 12 (sym_of_code c) = true end.
Proof. intros H. destruct l as [|[c w] l]; [exact H|apply ends_12]. Qed.
Ltac cnd := first [exact I | (apply Nat.leb_le; vm_compute; reflexivity) | match goal with H : _ <= _ |- _ => apply (fun x => Nat.le_trans _ _ _ x H); apply Nat.leb_le; vm_compute; reflexivity end | exact (le_n _) | lia | (cbn [app]; lia) | vm_compute; reflexivity | apply ends_12 | (apply next_12; lia) | (cbn [app K]; first [apply ends_12 | lia | match goal with H : _ <= _ |- _ => apply (ends_mono H); vm_compute; reflexivity end | (eapply ends_mono; [apply Nat.le_0_l | vm_compute; reflexivity])]) | idtac].
Ltac sq hs :=
  lazymatch goal with
  | |- saids _ _ _ [] _ _ _ _ _ _ => apply sd_nil
  | |- saids _ _ _ (?X :: _) _ _ _ _ _ _ =>
    let b := keyword X in
    lazymatch b with
    | true => let c := eval vm_compute in (code_of X) in eapply sd_cons; [apply (@said_tok X (K c)); reflexivity | sq hs | cnd | cnd | cnd]
    | false => lazymatch hs with (?h, ?hs') => eapply sd_cons; [first [exact h | eapply h] | sq hs' | cnd | cnd | cnd] end
    end
  end.
(** Equal token lists. *)
Ltac tk := unfold when_; cbn [app]; repeat (first [rewrite app_nil_r | rewrite <- app_assoc]; cbn [app]); reflexivity.
Ltac lev := match goal with |- _ <= ?s => let n := eval vm_compute in s in change s with n; lia end.
Ltac edg := first [apply (@edge2_le 12); [lia|vm_compute; reflexivity] | apply (@edge2_le 7); [lia|vm_compute; reflexivity] | apply (@edge2_le 11); [lia|vm_compute; reflexivity] | apply (@edge2_le 10); [lia|vm_compute; reflexivity] | apply (@edge2_le 9); [lia|vm_compute; reflexivity]
  | apply (@edge2_le 8); [lia|vm_compute; reflexivity] | apply (@edge2_le 6); [lia|vm_compute; reflexivity] | apply (@edge2_le 5); [lia|vm_compute; reflexivity] | apply (@edge2_le 4); [lia|vm_compute; reflexivity]
  | apply (@edge2_le 3); [lia|vm_compute; reflexivity] | apply (@edge2_le 2); [lia|vm_compute; reflexivity] | apply (@edge2_le 1); [lia|vm_compute; reflexivity] | apply (@edge2_le 0); [lia|vm_compute; reflexivity]].
(** Production [r] at levels [L], [D] from its parts [hs] (keywords are found automatically). *)
Ltac rl r L D hs :=
  eapply said_eq; [eapply (@said_rule r L D); [reflexivity | sq hs | reflexivity | reflexivity | lev | edg]| first [reflexivity|tk|idtac] | first [reflexivity|idtac] | first [reflexivity|lia|(cbn [xparams]; lia)|idtac] | first [lia|idtac] | first [lia|idtac] | first [lia|(cbn [xstack stack stack_from app]; lia)|idtac]].
Lemma said_unit r X Y l k v k' L D m : production r = Some (X, [Y]) -> is_operator r = false -> N.eqb r 298 = false -> (forall k v, asem r k [v] = Some v) -> L <= 12 -> said Y l k v k' L D m -> said X l k v k' L D m.
Proof.
  intros P O N298 A L12 H. assert (1 <= m) by (destruct H as [t Q]; pose proof (ph_need Q); pose proof (need_pos t); lia).
  eapply said_eq; [eapply (@said_rule r L D); [exact P|eapply sd_cons; [exact H|apply sd_nil|exact (le_n L)|exact (le_n D)|unfold last_level; rewrite O; apply Nat.le_0_l]|apply A|exact N298|rewrite (strength_plain O); exact L12|reflexivity]|..].
  - apply app_nil_r.
  - reflexivity.
  - reflexivity.
  - lia.
  - lia.
  - lia.
Qed.
Ltac up r := eapply (@said_unit r); [reflexivity | reflexivity | reflexivity | intros; reflexivity | first [lia|idtac] |].
Lemma said_id s k : said S_IDENTIFIER [Id s] k (str s) k 12 12 1. Proof. apply (@said_tok S_IDENTIFIER (Id s)). reflexivity. Qed.
Lemma said_num z k : said S_INTVAL [Num z] k (VInt z) k 12 12 1. Proof. apply (@said_tok S_INTVAL (Num z)). reflexivity. Qed.
Lemma said_string s k : said S_STRING [(TOK_STRING, TVStr s)] k (str s) k 12 12 1. Proof. apply (@said_tok S_STRING (TOK_STRING, TVStr s)). reflexivity. Qed.
Lemma said_float s k : said S_FLOATVAL [(TOK_FLOATVAL, TVFlt s)] k (VFlt s) k 12 12 1. Proof. apply (@said_tok S_FLOATVAL (TOK_FLOATVAL, TVFlt s)). reflexivity. Qed.
(** ** Comma lists *)
Lemma commas_snoc l (x : toks) : l <> [] -> commas (l ++ [x]) = commas l ++ [comma] ++ x ++ [].
Proof.
  induction l as [|y l IH]; intros N; [now contradiction N|]. destruct l as [|z l]; [cbn; now rewrite app_nil_r|].
  assert (E : forall (a : toks) b, b <> [] -> commas (a :: b) = a ++ [comma] ++ commas b) by (intros a [|? ?] Q; [now contradiction Q|reflexivity]).
  rewrite <- app_comm_cons, !E by discriminate. rewrite IH by discriminate. rewrite <- !app_assoc. reflexivity.
Qed.
Lemma numbered_snoc A (obj : A -> nat -> val) par l x k : numbered_list obj par (l ++ [x]) k = numbered_list obj par l k ++ [obj x (k + list_sum (map par l))].
Proof. revert k. induction l as [|y l IH]; intros k; cbn [numbered_list app map]; [now rewrite Nat.add_0_r|]. rewrite IH. change (list_sum (par y :: map par l)) with (par y + list_sum (map par l)). now rewrite Nat.add_assoc. Qed.
Lemma list_sum_snoc l x : list_sum (l ++ [x]) = list_sum l + x.
Proof. rewrite list_sum_app. cbn. lia. Qed.
Lemma list_stack_pos l : 1 <= list_stack l.
Proof. unfold list_stack. induction l; cbn [fold_right]; lia. Qed.
Lemma list_stack_snoc l x : list_stack (l ++ [x]) = Nat.max (list_stack l) (2 + x).
Proof. unfold list_stack. induction l as [|y l IH]; cbn [app fold_right] in *; [lia|]. rewrite IH. lia. Qed.
Lemma said_commas A (tok : A -> toks) obj par stk N E r1 r2 l : production r1 = Some (N, [E]) -> production r2 = Some (N, [N; S_comma; E]) ->
  (forall k x, asem r1 k [x] = Some (vec [x])) -> (forall k v c x, asem r2 k [v; c; x] = Some (snoc v x)) -> is_operator r1 = false -> is_operator r2 = false -> N.eqb r1 298 = false -> N.eqb r2 298 = false ->
  l <> [] -> (forall x, In x l -> forall k, said E (tok x) k (obj x k) (k + par x) 0 0 (stk x)) ->
  forall k, said N (commas (map tok l)) k (vec (numbered_list obj par l k)) (k + list_sum (map par l)) 0 0 (list_stack (map stk l)).
Proof.
  intros P1 P2 A1 A2 O1 O2 N1 N2. induction l as [|x l IH] using rev_ind; [now intros []|]. intros _ H k. destruct l as [|y l].
  - eapply said_eq; [eapply (@said_rule r1 0 0); [exact P1|eapply sd_cons; [apply (H x); now left|apply sd_nil|cnd|cnd|unfold last_level; rewrite O1; cnd]|apply A1|exact N1|lia|reflexivity]|..].
    + cbn. now rewrite app_nil_r.
    + reflexivity.
    + cbn. lia.
    + lia.
    + lia.
    + cbn. lia.
  - assert (NE : y :: l <> []) by discriminate. specialize (IH NE (fun z I => H z (in_or_app _ _ _ (or_introl I)))). remember (y :: l) as yl eqn:E2. clear E2.
    eapply said_eq; [eapply (@said_rule r2 0 0); [exact P2|eapply sd_cons; [exact (IH k)|eapply sd_cons; [apply (@said_tok S_comma comma); reflexivity|eapply sd_cons; [apply (H x); apply in_or_app; right; now left|apply sd_nil|cnd|cnd|]|..]|..]|apply A2|exact N2|lia|reflexivity]|..].
    + unfold last_level. rewrite O2. lia.
    + cnd.
    + cnd.
    + exact I.
    + vm_compute. reflexivity.
    + cnd.
    + exact I.
    + rewrite map_app. cbn [map]. rewrite commas_snoc by (destruct yl; [contradiction|discriminate]). reflexivity.
    + rewrite numbered_snoc. reflexivity.
    + rewrite map_app, list_sum_app. cbn [map]. cbn [list_sum fold_right]. lia.
    + lia.
    + lia.
    + rewrite map_app. cbn [map]. rewrite list_stack_snoc. pose proof (list_stack_pos (map stk yl)). cbn. lia.
Qed.
Lemma said_none r X v k : production r = Some (X, []) -> asem r k [] = Some v -> is_operator r = false -> N.eqb r 298 = false -> said X [] k v k 12 12 1.
Proof. intros P A O N298. eapply said_eq; [eapply (@said_rule r 12 12); [exact P|apply sd_nil|exact A|exact N298|rewrite (strength_plain O); lia|reflexivity]|..]; try reflexivity; try lia. Qed.
Ltac none r := apply (@said_none r); reflexivity.
Lemma said_pos X l k v k' L D m : said X l k v k' L D m -> 1 <= m.
Proof. intros [t Q]. pose proof (ph_need Q). pose proof (need_pos t). lia. Qed.
