(** Parameters of the returned statements.  No code of /repo. *)
From Verif Require Import ParseProof.
From Coq Require Import ZifyBool ZifyNat ZifyN Permutation.
Local Open Scope nat_scope.
Set Implicit Arguments.
Unset Strict Implicit.

(** *** Specification *)
(** The parameter expressions inside a value: address, ival, ival2. *)
Fixpoint params_in (v : val) : list (N * option val * option val) :=
  match v with
  | VObj a c fs =>
    match c, lookup F_type fs with
    | CExpr, Some (VEnum EExprType 7) => [(a, lookup F_ival fs, lookup F_ival2 fs)]
    | _, _ => []
    end ++ (fix go (fs : list (fld * val)) := match fs with [] => [] | (_, y) :: r => params_in y ++ go r end) fs
  | VVec _ l => (fix go (l : list val) := match l with [] => [] | y :: r => params_in y ++ go r end) l
  | VRec fs => (fix go (fs : list (fld * val)) := match fs with [] => [] | (_, y) :: r => params_in y ++ go r end) fs
  | _ => []
  end.
Definition params_of (l : list val) := flat_map params_in l.
(** Number of placeholders among the tokens. *)
Definition qmarks (ts : list token) : nat := List.length (filter (fun t => (t_code t =? 63)%Z) ts).
(** The i-th address belongs to a parameter with ival = ival2 = i. *)
Definition ith (i : nat) (a : N) : N * option val * option val := (a, Some (VInt (Z.of_nat i)), Some (VInt (Z.of_nat i))).
Fixpoint iths (i : nat) (l : list N) := match l with [] => [] | a :: l' => ith i a :: iths (S i) l' end.

(** *** Proofs *)
Definition paramsf (fs : list (fld * val)) := flat_map (fun p => params_in (snd p)) fs.
Lemma params_obj a c fs : params_in (VObj a c fs) =
  match c, lookup F_type fs with CExpr, Some (VEnum EExprType 7) => [(a, lookup F_ival fs, lookup F_ival2 fs)] | _, _ => [] end ++ paramsf fs.
Proof. cbn [params_in]. f_equal. induction fs as [|[f y] fs IH]; cbn; [reflexivity|]. now f_equal. Qed.
Lemma params_vec a l : params_in (VVec a l) = params_of l.
Proof. cbn [params_in]. induction l as [|y l IH]; cbn; [reflexivity|]. now f_equal. Qed.
Lemma params_rec fs : params_in (VRec fs) = paramsf fs.
Proof. cbn [params_in]. induction fs as [|[f y] fs IH]; cbn; [reflexivity|]. now f_equal. Qed.
Lemma expr_ival2 s : fst (shape_def s) = CExpr -> tlookup F_ival2 (snd (shape_def s)) = Some TInt.
Proof.
  assert (A : forallb (fun s => match fst (shape_def s) with CExpr => match tlookup F_ival2 (snd (shape_def s)) with Some TInt => true | _ => false end
                      | _ => true end) all_shapes = true) by (vm_compute; reflexivity).
  rewrite forallb_forall in A. specialize (A s (all_shapes_In s)). intro E. rewrite E in A.
  destruct (tlookup F_ival2 (snd (shape_def s))) as [[]|]; try discriminate A. reflexivity.
Qed.
Lemma obj_fields2 v ty : wt v ty -> match v with VObj b c fs => exists ts, wts fs ts /\ (c = CExpr -> tlookup F_ival2 ts = Some TInt) | _ => True end.
Proof. induction 1; try exact I; [assumption|]. exists (snd (shape_def s)). split; [assumption|apply expr_ival2]. Qed.
Definition key (q : N * Z) (p : N * option val * option val) : nat :=
  match p with (a, _, Some (VInt z)) => if N.eqb a (fst q) && Z.eqb z (snd q) then 1 else 0 | _ => 0 end.
Definition keys (q : N * Z) (l : list (N * option val * option val)) : nat := fold_right (fun p n => key q p + n) 0 l.
Lemma keys_app q l m : keys q (l ++ m) = keys q l + keys q m.
Proof. induction l as [|p l IH]; cbn [app keys fold_right]; [reflexivity|]. unfold keys in *. lia. Qed.
Definition int2 (p : N * option val * option val) : Prop := exists z, snd p = Some (VInt z).
(** What is known about the parameters inside one value. *)
Definition good_in (lim : Z) (l : list (N * option val * option val)) (c : N * Z -> nat) : Prop :=
  (forall q, keys q l = c q) /\ Forall (fun p => exists z, snd p = Some (VInt z) /\ ((z < lim)%Z -> snd (fst p) = Some (VInt z))) l.
Lemma params_good lim v : forall t, wt v t -> numbered lim v -> good_in lim (params_in v) (fun q => cp q v).
Proof.
  induction v as [| | | | | | |a c fs H|a l H|fs H] using val_ind2; intros ty WT NV; try (split; [reflexivity|constructor]).
  - destruct NV as [N1 N2]. change (numberedf lim fs) in N2.
    assert (W : exists ts, wts fs ts /\ (c = CExpr -> tlookup F_ival2 ts = Some TInt)).
    { exact (obj_fields2 WT). }
    destruct W as (ts & W & L2).
    assert (GF : good_in lim (paramsf fs) (fun q => cpf q fs)).
    { clear -H W N2. revert ts W. induction fs as [|[f y] fs IH]; intros ts W; [split; [reflexivity|constructor]|].
      inversion H as [|? ? H1 H2]; subst. inversion W as [|f0 v0 t0 fs0 ts0 WV WR]; subst. cbn [numberedf snd] in *. destruct N2 as [N2 N3].
      destruct (H1 _ WV N2) as [A1 A2]. destruct (IH H2 N3 _ WR) as [B1 B2]. unfold paramsf. cbn [flat_map snd]. split.
      - intro q. rewrite keys_app, A1. cbn [cpf]. now rewrite <- B1.
      - apply Forall_app. auto. }
    destruct GF as [G1 G2]. rewrite params_obj. split.
    + intro q. rewrite keys_app, cp_obj, G1. f_equal. unfold pobj. destruct c; try reflexivity. unfold pind, is_param.
      destruct (lookup F_type fs) as [[]|]; try reflexivity. destruct e; try reflexivity.
      destruct (wts_lookup W (L2 eq_refl)) as (y & LY & WY). apply wt_int_inv in WY as (z & ->). rewrite LY.
      destruct n as [|[[[]|[]|]|[[]|[]|]|]]; try reflexivity. cbn [keys fold_right key]. lia.
    + apply Forall_app. split; [|exact G2]. destruct c; try constructor. destruct (lookup F_type fs) as [[]|] eqn:LT; try constructor. destruct e; try constructor.
      destruct (wts_lookup W (L2 eq_refl)) as (y & LY & WY). apply wt_int_inv in WY as (z & ->).
      destruct n as [|[[[]|[]|]|[[]|[]|]|]]; try constructor; [|constructor]. exists z. cbn [fst snd]. split; [exact LY|]. intro LZ.
      apply (N1 eq_refl z); [|exact LZ]. unfold is_param. now rewrite LT, LY.
  - change (numbereds lim l) in NV. destruct (vec_fields WT) as (t' & W). clear WT. rewrite params_vec.
    assert (GF : good_in lim (params_of l) (fun q => cps q l)).
    { clear -H W NV. induction l as [|y l IH]; [split; [reflexivity|constructor]|].
      inversion H as [|? ? H1 H2]; subst. inversion W as [|v0 l0 t0 WV WR]; subst. cbn [numbereds] in *. destruct NV as [N2 N3].
      destruct (H1 _ WV N2) as [A1 A2]. destruct (IH H2 N3 WR) as [B1 B2]. unfold params_of. cbn [flat_map]. split.
      - intro q. rewrite keys_app, A1. cbn [cps]. now rewrite <- B1.
      - apply Forall_app. auto. }
    destruct GF as [G1 G2]. split; [|exact G2]. intro q. now rewrite cp_vec.
  - change (numberedf lim fs) in NV. destruct (rec_fields WT) as (ts & W). clear WT. rewrite params_rec.
    assert (GF : good_in lim (paramsf fs) (fun q => cpf q fs)).
    { clear -H W NV. revert ts W. induction fs as [|[f y] fs IH]; intros ts W; [split; [reflexivity|constructor]|].
      inversion H as [|? ? H1 H2]; subst. inversion W as [|f0 v0 t0 fs0 ts0 WV WR]; subst. cbn [numberedf snd] in *. destruct NV as [N2 N3].
      destruct (H1 _ WV N2) as [A1 A2]. destruct (IH H2 N3 _ WR) as [B1 B2]. unfold paramsf. cbn [flat_map snd]. split.
      - intro q. rewrite keys_app, A1. cbn [cpf]. now rewrite <- B1.
      - apply Forall_app. auto. }
    destruct GF as [G1 G2]. split; [|exact G2]. intro q. now rewrite cp_rec.
Qed.
Lemma params_of_good lim l t : wtl l t -> numbereds lim l ->
  (forall q, keys q (params_of l) = cps q l) /\ Forall (fun p => exists z, snd p = Some (VInt z) /\ ((z < lim)%Z -> snd (fst p) = Some (VInt z))) (params_of l).
Proof.
  intros W N. induction l as [|v l IH]; [split; [reflexivity|constructor]|]. inversion W as [|v0 l0 t0 WV WR]; subst. destruct N as [N1 N2].
  destruct (params_good WV N1) as [A1 A2]. destruct (IH WR N2) as [B1 B2]. unfold params_of. cbn [flat_map]. split.
  - intro q. rewrite keys_app, A1. cbn [cps]. now rewrite <- B1.
  - apply Forall_app. auto.
Qed.
(** A list of triples is determined up to order by its keys. *)
Lemma keys_In q l : 1 <= keys q l -> exists x l1 l2, l = l1 ++ (fst q, x, Some (VInt (snd q))) :: l2.
Proof.
  induction l as [|p l IH]; cbn [keys fold_right]; [lia|]. intro H. destruct (key q p) eqn:K.
  - destruct IH as (x & l1 & l2 & ->); [exact H|]. exists x, (p :: l1), l2. reflexivity.
  - destruct p as [[a x] [[]|]]; cbn [key] in K; try discriminate K. destruct (N.eqb a (fst q) && Z.eqb z (snd q)) eqn:E; [|discriminate].
    exists x, [], l. cbn [app]. repeat f_equal; lia.
Qed.
Lemma keys_perm lim (m : list (N * Z)) : forall l, Forall (fun q => (snd q < lim)%Z) m ->
  Forall (fun p => exists z, snd p = Some (VInt z) /\ ((z < lim)%Z -> snd (fst p) = Some (VInt z))) l ->
  (forall q, keys q l = keys q (map (fun q => (fst q, Some (VInt (snd q)), Some (VInt (snd q)))) m)) ->
  Permutation l (map (fun q => (fst q, Some (VInt (snd q)), Some (VInt (snd q)))) m).
Proof.
  induction m as [|q m IH]; intros l L F K.
  - destruct l as [|p l]; [constructor|]. exfalso. inversion F as [|? ? (z & E & _) _]; subst. destruct p as [[a x] y]. cbn [snd fst] in E. subst y.
    specialize (K (a, z)). cbn [keys fold_right key map fst snd] in K. rewrite N.eqb_refl, Z.eqb_refl in K. cbn in K. lia.
  - inversion L; subst. destruct (@keys_In q l) as (x & l1 & l2 & ->).
    { rewrite K. cbn [keys map fold_right key fst snd]. rewrite N.eqb_refl, Z.eqb_refl. cbn. lia. }
    apply Forall_app in F as [F1 F2]. inversion F2 as [|? ? (z & E & EZ) F3]; subst. cbn [fst snd] in *. injection E as <-. rewrite (EZ H1).
    etransitivity; [symmetry; apply Permutation_middle|]. cbn [map]. constructor. apply IH; [assumption|apply Forall_app; auto|].
    intro q'. specialize (K q'). cbn [map] in K. rewrite !keys_app in *. cbn [keys fold_right key fst snd] in K. unfold keys in *. lia.
Qed.
Lemma numbers_snd ps : forall i, map snd (numbers ps i) = map (fun k => (i + Z.of_nat k)%Z) (seq 0 (List.length ps)).
Proof.
  induction ps as [|a ps IH]; intro i; [reflexivity|]. cbn [numbers map List.length seq snd]. f_equal; [lia|]. rewrite IH, <- seq_shift, map_map. apply map_ext. intro k. lia.
Qed.
Lemma numbers_keys ps q : forall i, (0 <= i)%Z -> keys q (map (fun q => (fst q, Some (VInt (snd q)), Some (VInt (snd q)))) (numbers ps i)) =
  if (i <=? snd q)%Z then match nth_error ps (Z.to_nat (snd q - i)) with Some a => ind a (fst q) | None => 0 end else 0.
Proof.
  induction ps as [|a ps IH]; intros i LI; cbn [numbers map keys fold_right].
  - destruct (i <=? snd q)%Z; [|reflexivity]. destruct (Z.to_nat (snd q - i)); reflexivity.
  - fold (keys q (map (fun q => (fst q, Some (VInt (snd q)), Some (VInt (snd q)))) (numbers ps (i + 1)))). rewrite IH by lia. cbn [key fst snd]. unfold ind.
    destruct (Z.eq_dec i (snd q)) as [->|NE].
    + rewrite Z.eqb_refl, andb_true_r, Z.leb_refl, Z.sub_diag. cbn [Z.to_nat nth_error]. destruct (snd q + 1 <=? snd q)%Z eqn:E; lia.
    + assert (E : (i =? snd q)%Z = false) by lia. rewrite E, andb_false_r. cbn [plus]. destruct (i <=? snd q)%Z eqn:L1.
      * assert (L2 : (i + 1 <=? snd q)%Z = true) by lia. rewrite L2. replace (Z.to_nat (snd q - i)) with (S (Z.to_nat (snd q - (i + 1)))) by lia. reflexivity.
      * assert (L2 : (i + 1 <=? snd q)%Z = false) by lia. now rewrite L2.
Qed.
Lemma params_listed ps l t : wtl l t -> numbereds (Z.of_nat (List.length ps)) l -> (forall q, cps q l = listed_in ps q) ->
  Permutation (params_of l) (map (fun q => (fst q, Some (VInt (snd q)), Some (VInt (snd q)))) (numbers ps 0)).
Proof.
  intros W N C. destruct (params_of_good W N) as [A B]. apply keys_perm with (lim := Z.of_nat (List.length ps)); [|exact B|].
  - assert (G : forall i, Forall (fun q => (snd q < i + Z.of_nat (List.length ps))%Z) (numbers ps i)).
    { clear. induction ps as [|a ps IH]; intro i; constructor; [cbn; lia|]. specialize (IH (i + 1)%Z). eapply Forall_impl; [|exact IH]. cbn. intros. lia. }
    specialize (G 0%Z). exact G.
  - intro q. rewrite A, C, numbers_keys by lia. unfold listed_in. now rewrite Z.sub_0_r.
Qed.

(** ** Counting placeholders *)
Definition is_q (t : token) : bool := N.eqb (sym_of t) S_qmark.
Lemma is_q_code t : is_q t = (t_code t =? 63)%Z.
Proof.
  unfold is_q, sym_of, sym_of_code. destruct (t_code t <=? 0)%Z eqn:E; [destruct (t_code t =? 63)%Z eqn:E6; [lia|reflexivity]|].
  assert (A : forallb (fun z => Bool.eqb (z =? 63)%Z (match yytranslate_of z with Some y => N.eqb (Z.to_N y) S_qmark | None => false end)) (TableCheck.zrange 1000 1) = true) by (vm_compute; reflexivity).
  destruct (Z_lt_ge_dec (t_code t) 1001) as [L|G].
  - rewrite forallb_forall in A. specialize (A (t_code t)). assert (I : In (t_code t) (TableCheck.zrange 1000 1)) by (apply TableCheck.zrange_In; lia). specialize (A I). apply eqb_prop in A. rewrite A.
    destruct (yytranslate_of (t_code t)); reflexivity.
  - unfold yytranslate_of. assert (M : (t_code t <=? BisonTables.YYMAXUTOK)%Z = false) by (unfold BisonTables.YYMAXUTOK; lia). rewrite M, andb_false_r.
    assert (E6 : (t_code t =? 63)%Z = false) by lia. rewrite E6. reflexivity.
Qed.
Lemma q_rules : forallb (fun p => if N.eqb (fst p) 298 then match snd (snd p) with [X] => N.eqb X S_qmark | _ => false end else negb (existsb (N.eqb S_qmark) (snd (snd p)))) GrammarDef.grammar = true.
Proof. vm_compute. reflexivity. Qed.
Definition qs (ts : list token) : nat := List.length (filter is_q ts).
Lemma qs_app a b : qs (a ++ b) = qs a + qs b.
Proof. unfold qs. now rewrite filter_app, app_length. Qed.
Lemma sem_count X t : derives X t -> forall k v k', sem t k = Some (v, k') -> X <> S_qmark -> k' = k + qs (yield t).
Proof.
  intro D. revert X t D. apply (derives_mind (fun X t _ => forall k v k', sem t k = Some (v, k') -> X <> S_qmark -> k' = k + qs (yield t))
    (fun Xs ts _ => forall k vs k', sems ts k = Some (vs, k') -> ~ In S_qmark Xs -> k' = k + qs (yields ts))).
  - intros t k v k' E N. cbn in E. injection E as _ <-. cbn [yield]. unfold qs. cbn [filter]. unfold is_q. destruct (N.eqb_spec (sym_of t) S_qmark); [contradiction|cbn; lia].
  - intros r lhs rhs ts P DL IH k v k' E N. rewrite sem_node in E. change (yield (Node r ts)) with (yields ts).
    pose proof (proj1 (forallb_forall _ GrammarDef.grammar) q_rules _ (production_In P)) as Q. cbn [fst snd] in Q.
    destruct (sems ts k) as [[vs k1]|] eqn:ES; [|discriminate]. destruct (asem r k1 vs) as [w|]; [|discriminate]. injection E as _ <-. destruct (N.eqb r 298) eqn:R.
    + destruct rhs as [|Y [|]]; try discriminate Q. apply N.eqb_eq in Q. subst Y. inversion DL as [|X1 Xs1 t1 ts1 D1 D2]; subst. inversion D2; subst.
      assert (LT : (S_qmark < 199)%N) by reflexivity. destruct (derives_terminal D1 LT) as (tk & -> & SK). cbn in ES. injection ES as _ <-.
      cbn. unfold qs. cbn [filter]. unfold is_q. rewrite SK. cbn. lia.
    + apply (IH _ _ _ ES). intro I. apply negb_true_iff in Q. assert (existsb (N.eqb S_qmark) rhs = true); [|congruence]. apply existsb_exists. exists S_qmark. split; [exact I|apply N.eqb_refl].
  - intros k vs k' E _. cbn in E. injection E as _ <-. unfold qs. cbn. lia.
  - intros Y Ys t ts D IH DL IHL k vs k' E N. cbn [sems] in E. destruct (sem t k) as [[v k1]|] eqn:E1; [|discriminate]. destruct (sems ts k1) as [[ws k2]|] eqn:E2; [|discriminate]. injection E as _ <-.
    unfold yields. cbn [flat_map]. rewrite qs_app. rewrite (IHL _ _ _ E2), (IH _ _ _ E1); [unfold yields; lia| |]; intro; apply N; [left; congruence|now right].
Qed.
Lemma qs_qmarks ts : qs ts = qmarks ts.
Proof. unfold qs, qmarks. f_equal. apply filter_ext. intro. apply is_q_code. Qed.
