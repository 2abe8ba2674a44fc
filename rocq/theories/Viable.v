(** The tokens on the parser's stack begin a sentence of the grammar, whatever token it shifts next; the tokens a syntax error lists are such
    tokens.  No code of /repo: facts about the tables and the machine of Abs.v, with the certificate of ItemCert.v. *)
From Verif Require Export Items Complete PrecSound.
From Coq Require Import ZifyBool ZifyNat ZifyN.
Local Open Scope nat_scope.
Set Implicit Arguments.
Unset Strict Implicit.

(** ** Every symbol derives something *)
Definition code_for (X : N) : option Z := find (fun c => N.eqb (sym_of_code c) X) (zrange 437 0).
Definition blank_token (c : Z) : token := mkTok c TVNone pos0 0.
Definition makes (S X : N) : bool := if terminal X then match code_for X with Some _ => true | None => false end else N.testbit S X.
Definition grow (S : N) : N := fold_left (fun S p => if forallb (makes S) (snd (snd p)) then N.setbit S (fst (snd p)) else S) grammar S.
Fixpoint growing (n : nat) : N := match n with O => 0%N | S n' => grow (growing n') end.
Definition produces (S : N) : Prop := forall X, terminal X = false -> N.testbit S X = true -> exists t, derives X t.
Lemma makes_derives S X : produces S -> makes S X = true -> exists t, derives X t.
Proof.
  intros H M. unfold makes in M. destruct (terminal X) eqn:T; [|exact (H X T M)]. unfold code_for in M. destruct (find _ _) as [c|] eqn:F; [|discriminate].
  apply find_some in F as [_ F]. apply N.eqb_eq in F. exists (Leaf (blank_token c)). rewrite <- F. exact (d_leaf (blank_token c)).
Qed.
Lemma makes_list S Xs : produces S -> forallb (makes S) Xs = true -> exists ts, derives_list Xs ts.
Proof.
  intro H. induction Xs as [|X Xs IH]; intro M; [exists []; constructor|]. cbn [forallb] in M. apply andb_prop in M as [M1 M2].
  destruct (makes_derives H M1) as (t & D). destruct (IH M2) as (ts & Ds). exists (t :: ts). constructor; assumption.
Qed.
Lemma grow_produces S : produces S -> produces (grow S).
Proof.
  unfold grow. assert (A : forall p, In p grammar -> production (fst p) = Some (snd p)).
  { assert (C : forallb (fun p => match production (fst p) with Some q => N.eqb (fst q) (fst (snd p)) && (if list_eq_dec N.eq_dec (snd q) (snd (snd p)) then true else false) | None => false end) grammar = true) by (vm_compute; reflexivity).
    intros [r [l rh]] I. pose proof (proj1 (forallb_forall _ _) C _ I) as E. cbn [fst snd] in E |- *. destruct (production r) as [[l' rh']|]; [|discriminate]. cbn [fst snd] in E.
    apply andb_prop in E as [E1 E2]. apply N.eqb_eq in E1. destruct (list_eq_dec N.eq_dec rh' rh); [now subst|discriminate]. }
  revert S. induction grammar as [|p g IH]; intros S H; [exact H|]. cbn [fold_left]. apply IH; [intros; apply A; now right|]. destruct (forallb (makes S) (snd (snd p))) eqn:F; [|exact H].
  intros X T B. rewrite N.setbit_eqb in B. destruct (N.eqb_spec (fst (snd p)) X) as [E|NE]; [|exact (H X T B)].
  destruct (makes_list H F) as (ts & D). exists (Node (fst p) ts). rewrite <- E. econstructor; [|exact D]. rewrite (A p (or_introl eq_refl)). now destruct (snd p).
Qed.
Lemma growing_produces n : produces (growing n).
Proof. induction n as [|n IH]; [intros X _ B; now destruct X|apply grow_produces, IH]. Qed.
Definition grown : N := Eval vm_compute in growing 20.
Lemma grown_produces : produces grown.
Proof. replace grown with (growing 20) by (vm_compute; reflexivity). apply growing_produces. Qed.
Lemma grammar_grown : forallb (fun p => forallb (makes grown) (snd (snd p))) grammar = true.
Proof. vm_compute. reflexivity. Qed.
Lemma rhs_produces r lhs rhs n : production r = Some (lhs, rhs) -> exists ts, derives_list (skipn n rhs) ts.
Proof.
  intro P. pose proof (proj1 (forallb_forall _ _) grammar_grown _ (production_mem P)) as A. cbn [snd] in A. apply (makes_list grown_produces).
  rewrite <- (firstn_skipn n rhs), forallb_app in A. now apply andb_prop in A as [_ A].
Qed.

(** ** Checks on the items *)
Definition mem_item (s : Z) (r d : N) : bool := existsb (fun x => if N.eqb (fst (fst x)) r then N.eqb (snd (fst x)) d else false) (items s).
Definition kernel (x : N * N * N) : bool := negb (N.eqb (snd (fst x)) 0) || N.eqb (fst (fst x)) 1.
Definition after (x : N * N * N) : list N := match production (fst (fst x)) with Some (_, rhs) => firstn 1 (skipn (N.to_nat (snd (fst x))) rhs) | None => [] end.
Definition lhs_of (r : N) : N := match production r with Some (lhs, _) => lhs | None => 0%N end.
Definition bits (l : list N) (S : N) : N := fold_left N.setbit l S.
Definition reach0 (s : Z) : N := fold_left (fun S x => if kernel x then bits (after x) S else S) (items s) 0%N.
Definition reach1 (s : Z) (S : N) : N := fold_left (fun S x => if kernel x then S else if N.testbit S (lhs_of (fst (fst x))) then bits (after x) S else S) (items s) S.
Definition reach (s : Z) : N := Nat.iter 12 (reach1 s) (reach0 s).
(** Items with the dot at the beginning belong to a nonterminal that some item wants next; the others come from the states below. *)
Definition item_closed (s : Z) : bool :=
  let R := reach s in
  forallb (fun x => if kernel x then true else N.testbit R (lhs_of (fst (fst x)))) (items s).
Definition item_origin (s : Z) (x : N * N * N) : bool :=
  let '(r, d, _) := x in
  if N.eqb d 0 then true
  else match production r with
  | Some (_, rhs) => match nth_error rhs (N.to_nat (d - 1)) with Some X => N.eqb X (stos s) && forallb (fun s0 => mem_item s0 r (d - 1)) (preds s) | None => false end
  | None => false
  end.
Definition state_valid (s : Z) : bool :=
  item_closed s && forallb (item_origin s) (items s) && (if (s =? 0)%Z then forallb (fun x => N.eqb (snd (fst x)) 0) (items s) else forallb (fun x => negb (kernel x) || negb (N.eqb (snd (fst x)) 0)) (items s) && existsb (fun x => negb (N.eqb (snd (fst x)) 0)) (items s)).
Lemma valid_states : forallb state_valid all_states = true.
Proof. vm_cast_no_check (eq_refl true). Qed.
Lemma mem_item_In s r d : mem_item s r d = true -> exists i, In (r, d, i) (items s).
Proof.
  unfold mem_item. intro H. apply existsb_exists in H as ([[r' d'] i] & I & E). cbn [fst snd] in E. destruct (N.eqb_spec r' r); [|discriminate]. apply N.eqb_eq in E. subst. eauto.
Qed.
Lemma valid_state s : (0 <= s < 656)%Z -> state_valid s = true.
Proof. intro R. apply (proj1 (forallb_forall _ _) valid_states). apply zrange_In. lia. Qed.

(** ** Items are valid for what is on the stack *)
(** Whatever completes the symbols [Xs] after the trees [ts] begins a sentence. *)
Definition begins (l : list token) : Prop := exists t e rest, derives S_input t /\ sym_of e = 0%N /\ yield t ++ [e] = l ++ rest.
Definition wanted (ts : list tree) (Xs : list N) : Prop := forall us, derives_list Xs us -> begins (yields ts ++ yields us).
Definition fits (ts : list tree) (x : N * N * N) : Prop :=
  exists lhs rhs, production (fst (fst x)) = Some (lhs, rhs) /\ wanted ts (skipn (N.to_nat (snd (fst x))) rhs).
Lemma yields_app a b : yields (a ++ b) = yields a ++ yields b.
Proof. unfold yields. apply flat_map_app. Qed.
Lemma begins_app a b : begins (a ++ b) -> begins a.
Proof. intros (t & e & r & D & E & Y). exists t, e, (b ++ r). rewrite Y, app_assoc. auto. Qed.
Lemma after_wanted ts x X : fits ts x -> In X (after x) -> wanted ts [X].
Proof.
  intros (lhs & rhs & P & W) I us D. unfold after in I. rewrite P in I. set (Xs := skipn (N.to_nat (snd (fst x))) rhs) in *.
  destruct Xs as [|Y Ys] eqn:EX; [destruct I|]. destruct I as [<-|[]]. inversion D as [|? ? u ? Du Dn]; subst. inversion Dn; subst.
  destruct (@rhs_produces _ _ _ (S (N.to_nat (snd (fst x)))) P) as (ms & DM). rewrite (skipn_cons EX) in DM.
  specialize (W (u :: ms) ltac:(constructor; assumption)). change (u :: ms) with ([u] ++ ms) in W. rewrite yields_app, app_assoc in W. exact (begins_app W).
Qed.
Definition all_wanted (ts : list tree) (S : N) : Prop := forall X, N.testbit S X = true -> wanted ts [X].
Lemma bits_wanted ts l : forall S, all_wanted ts S -> (forall X, In X l -> wanted ts [X]) -> all_wanted ts (bits l S).
Proof.
  induction l as [|Y l IH]; intros S A B; [exact A|]. cbn [bits fold_left]. apply IH; [|intros; apply B; now right].
  intros X T. rewrite N.setbit_eqb in T. destruct (N.eqb_spec Y X) as [->|]; [apply B; now left|exact (A X T)].
Qed.
Lemma lhs_fits ts x : wanted ts [lhs_of (fst (fst x))] -> snd (fst x) = 0%N -> production (fst (fst x)) <> None -> fits ts x.
Proof.
  intros W D0 NP. destruct (production (fst (fst x))) as [[lhs rhs]|] eqn:P; [|congruence]. exists lhs, rhs. split; [exact P|]. rewrite D0. cbn [N.to_nat skipn]. intros us D.
  unfold lhs_of in W. rewrite P in W. assert (D' : derives_list [lhs] [Node (fst (fst x)) us]) by (repeat econstructor; eassumption).
  specialize (W _ D'). cbn [yields flat_map yield] in W. rewrite app_nil_r in W. exact W.
Qed.
Lemma item_production s x : In x (items s) -> production (fst (fst x)) <> None.
Proof. intro I. pose proof (items_ok I) as A. unfold item_ok in A. destruct x as [[r d] i]. cbn [fst]. destruct (production r); [discriminate|]. discriminate. Qed.
Lemma reach_wanted s ts : (forall x, In x (items s) -> kernel x = true -> fits ts x) -> all_wanted ts (reach s).
Proof.
  intro K. unfold reach. generalize 12. intro n. induction n as [|n IH].
  - cbn [Nat.iter nat_rect]. unfold reach0. assert (A : forall l, (forall x, In x l -> In x (items s)) -> forall S, all_wanted ts S -> all_wanted ts (fold_left (fun S x => if kernel x then bits (after x) S else S) l S)).
    { induction l as [|x l IH]; intros SUB S A; [exact A|]. cbn [fold_left]. apply IH; [intros; apply SUB; now right|]. destruct (kernel x) eqn:KX; [|exact A].
      apply bits_wanted; [exact A|]. intros X I. eapply after_wanted; [|exact I]. apply K; [apply SUB; now left|exact KX]. }
    apply A; [auto|]. intros X T. now destruct X.
  - cbn [Nat.iter nat_rect]. unfold reach1 at 1. fold (Nat.iter n (reach1 s) (reach0 s)) in *. revert IH. generalize (Nat.iter n (reach1 s) (reach0 s)).
    assert (A : forall l, (forall x, In x l -> In x (items s)) -> forall S, all_wanted ts S -> all_wanted ts (fold_left (fun S x => if kernel x then S else if N.testbit S (lhs_of (fst (fst x))) then bits (after x) S else S) l S)).
    { induction l as [|x l IH]; intros SUB S A; [exact A|]. cbn [fold_left]. apply IH; [intros; apply SUB; now right|]. destruct (kernel x) eqn:KX; [exact A|]. destruct (N.testbit S (lhs_of (fst (fst x)))) eqn:T; [|exact A].
      apply bits_wanted; [exact A|]. intros X I. eapply after_wanted; [|exact I]. apply lhs_fits; [exact (A _ T)| |apply (item_production (SUB _ (or_introl eq_refl)))].
      unfold kernel in KX. apply orb_false_iff in KX as [KX _]. apply negb_false_iff, N.eqb_eq in KX. exact KX. }
    intros S0 H0. apply A; auto.
Qed.
Lemma items_fit s ts : (0 <= s < 656)%Z -> (forall x, In x (items s) -> kernel x = true -> fits ts x) -> forall x, In x (items s) -> fits ts x.
Proof.
  intros R K x I. destruct (kernel x) eqn:KX; [auto|]. pose proof (valid_state R) as V. unfold state_valid in V. apply andb_prop in V as [V _]. apply andb_prop in V as [V _]. unfold item_closed in V.
  pose proof (proj1 (forallb_forall _ _) V x I) as C. cbn beta zeta in C. rewrite KX in C. apply lhs_fits; [exact (reach_wanted K C)| |exact (item_production I)].
  unfold kernel in KX. apply orb_false_iff in KX as [KX _]. apply negb_false_iff, N.eqb_eq in KX. exact KX.
Qed.
Lemma fits_start x : In x (items 0) -> fits [] x.
Proof.
  apply items_fit; [lia|]. intros [[r d] i] I K. pose proof (@valid_state 0 ltac:(lia)) as V. unfold state_valid in V. apply andb_prop in V as [_ V]. rewrite Z.eqb_refl in V.
  pose proof (proj1 (forallb_forall _ _) V _ I) as D. cbn [fst snd] in D. apply N.eqb_eq in D as ->. unfold kernel in K. cbn [fst snd] in K. rewrite N.eqb_refl in K. cbn [negb orb] in K. apply N.eqb_eq in K as ->.
  exists S_accept_, [S_input; S_END_]. split; [exact production_1|]. cbn [fst snd N.to_nat skipn]. intros us D.
  inversion D as [|? ? u ? D1 D2]; subst. inversion D2 as [|? ? v ? D3 D4]; subst. inversion D4; subst. destruct (derives_term D3 eq_refl) as (e & -> & E).
  exists u, e, []. split; [exact D1|]. split; [symmetry; exact E|]. cbn [yields flat_map yield app]. now rewrite !app_nil_r.
Qed.
Lemma fits_push s0 s t ts x : (0 <= s < 656)%Z -> link s0 s t -> (forall x, In x (items s0) -> fits ts x) -> In x (items s) -> fits (ts ++ [t]) x.
Proof.
  intros R (P & NZ & D & _) F. apply items_fit; [exact R|]. clear x. intros [[r d] i] I K. pose proof (valid_state R) as V. unfold state_valid in V. apply andb_prop in V as [V V3]. apply andb_prop in V as [_ V].
  pose proof (proj1 (forallb_forall _ _) V _ I) as O. clear V. unfold item_origin in O. assert (DN : d <> 0%N).
  { replace (s =? 0)%Z with false in V3 by lia. apply andb_prop in V3 as [V3 _]. pose proof (proj1 (forallb_forall _ _) V3 _ I) as C. cbn beta in C. rewrite K in C. cbn [negb orb snd fst] in C. intros ->. discriminate C. }
  clear V3. destruct (N.eqb_spec d 0); [contradiction|]. destruct (production r) as [[lhs rhs]|] eqn:PR; [|discriminate]. destruct (nth_error rhs (N.to_nat (d - 1))) as [X|] eqn:NT; [|discriminate].
  apply andb_prop in O as [O1 O2]. apply N.eqb_eq in O1 as ->. pose proof (proj1 (forallb_forall _ _) O2 _ P) as M. destruct (mem_item_In M) as (j & J). destruct (F _ J) as (lhs' & rhs' & P' & W).
  cbn [fst snd] in P', W. rewrite PR in P'. injection P' as <- <-. exists lhs, rhs. split; [exact PR|]. cbn [fst snd]. intros us DU.
  assert (SK : skipn (N.to_nat (d - 1)) rhs = stos s :: skipn (N.to_nat d) rhs).
  { destruct (nth_error_split _ _ NT) as (l1 & l2 & -> & L). rewrite <- L. replace (N.to_nat d) with (S (List.length l1)) by lia. rewrite !skipn_app, skipn_all, Nat.sub_diag.
    rewrite (skipn_all2 l1) by lia. replace (S (List.length l1) - List.length l1) with 1 by lia. reflexivity. }
  rewrite SK in W. specialize (W (t :: us) ltac:(constructor; assumption)). change (t :: us) with ([t] ++ us) in W. rewrite yields_app in *. rewrite <- app_assoc. exact W.
Qed.
Lemma link_range s0 s t : link s0 s t -> (0 <= s < 656)%Z.
Proof. intros (P & _). pose proof (preds_nonempty P). lia. Qed.
Lemma fits_chain l : forall s0 ts, chain s0 l -> (forall x, In x (items s0) -> fits ts x) -> forall x, In x (items (lastst s0 l)) -> fits (ts ++ map snd l) x.
Proof.
  induction l as [|[s t] l IH]; intros s0 ts C F; [cbn [map lastst]; rewrite app_nil_r; exact F|]. destruct C as [L C]. cbn [map snd lastst]. change (ts ++ t :: map snd l) with (ts ++ [t] ++ map snd l). rewrite app_assoc.
  apply (IH s); [exact C|]. intros y. apply (fits_push (link_range L) L F).
Qed.
(** ** The viable prefix property *)
Theorem viable ts a k s' : asteps (astart ts) a -> atop (a_stk a) <> YYFINAL -> decide (atop (a_stk a)) (Some (Z.of_N (sym_of k))) = Some (DShift s') -> begins (yields (atrees a) ++ [k]).
Proof.
  intros H NF D. pose proof (ainv_runs (asteps_runs H) (ainv_start ts)) as [C _ _]. pose proof (chain_path C) as HP.
  assert (RG : (0 <= atop (a_stk a) < 656)%Z). { destruct (a_stk a) as [|[s t] l]; [cbn; lia|]. exact (path_cons HP). }
  pose proof (decide_cases RG NF (t := Some (Z.of_N (sym_of k))) (sym_Z k)) as DC. rewrite D in DC. destruct DC as (x & EX & SO). injection EX as <-. unfold shift_ok in SO.
  apply andb_prop in SO as [SO S0]. apply andb_prop in SO as [SM SS]. apply memZ_In in SM. apply N.eqb_eq in SS. rewrite N2Z.id in SS.
  assert (L : link (atop (a_stk a)) s' (Leaf k)).
  { split; [exact SM|]. split; [lia|]. split; [rewrite SS; constructor|]. split; [intros q E; injection E as <-; exact D|intros q []]. }
  assert (FB : forall x, In x (items (atop (a_stk a))) -> fits (atrees a) x).
  { intros x I. rewrite <- lastst_atop in I. pose proof (fits_chain C (ts := []) fits_start I) as F. cbn [app] in F. unfold atrees. rewrite <- map_rev. exact F. }
  pose proof (valid_state (link_range L)) as V. unfold state_valid in V. apply andb_prop in V as [_ V]. destruct (Z.eqb_spec s' 0); [destruct L as (_ & L & _); contradiction|].
  apply andb_prop in V as [_ V]. apply existsb_exists in V as (x & I & _). destruct (fits_push (link_range L) L FB I) as (lhs & rhs & P & W).
  destruct (@rhs_produces _ _ _ (N.to_nat (snd (fst x))) P) as (us & DU). specialize (W us DU). rewrite yields_app in W. exact (begins_app W).
Qed.

(** ** The tokens listed in a message *)
Definition listed (s : Z) : list Z := let ex := expected_tokens s in if (4 <? Z.of_nat (List.length ex))%Z then [] else ex.
Definition errs (s : Z) : bool := existsb (fun a => match decide s (Some a) with Some DError => true | _ => false end) all_tokens.
Definition listed_ok (s : Z) : bool :=
  match listed s with
  | [] => true
  | l => if errs s then forallb (fun x => if (0 <=? x)%Z && (x <? 199)%Z then match decide s (Some x), code_for (Z.to_N x) with Some (DShift _), Some _ => true | _, _ => false end else false) l else true
  end.
Lemma listed_checked : forallb listed_ok all_states = true.
Proof. vm_cast_no_check (eq_refl true). Qed.
