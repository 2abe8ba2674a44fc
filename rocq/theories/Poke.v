(** What numbering the parameters at the end of a parse does to the statements.  No code of /repo. *)
From Verif Require Export ActTac.
From Coq Require Import ZifyBool ZifyNat ZifyN.
Local Open Scope nat_scope.
Set Implicit Arguments.
Unset Strict Implicit.

Definition on_fields (g : val -> val) (fs : list (fld * val)) : list (fld * val) := map (fun p => (fst p, g (snd p))) fs.
Lemma poke_obj a f x b c fs : poke a f x (VObj b c fs) =
  VObj b c (if N.eqb a b then update f x (on_fields (poke a f x) fs) else on_fields (poke a f x) fs).
Proof.
  cbn [poke]. assert (E : (fix go (fs : list (fld * val)) := match fs with [] => [] | (g, y) :: r => (g, poke a f x y) :: go r end) fs
                          = on_fields (poke a f x) fs) by (unfold on_fields; induction fs as [|[g y] fs IH]; cbn; congruence).
  rewrite E. reflexivity.
Qed.
Lemma poke_rec a f x fs : poke a f x (VRec fs) = VRec (on_fields (poke a f x) fs).
Proof. cbn [poke]. f_equal. unfold on_fields. induction fs as [|[g y] fs IH]; cbn; congruence. Qed.
Definition erase_fields (fs : list (fld * val)) : list (fld * val) := map (fun p => (fst p, erase_scalar (fst p) (erase (snd p)))) fs.
Lemma erase_obj_def a c fs : erase (VObj a c fs) = VObj 0 c (erase_obj c (erase_fields fs)).
Proof. cbn [erase]. do 2 f_equal. unfold erase_fields. induction fs as [|[g y] fs IH]; cbn; congruence. Qed.
Lemma erase_rec_def fs : erase (VRec fs) = VRec (erase_fields fs).
Proof. cbn [erase]. f_equal. unfold erase_fields. induction fs as [|[g y] fs IH]; cbn; congruence. Qed.

(** ** Updating a field *)
Lemma update_update f x y fs : update f x (update f y fs) = update f x fs.
Proof.
  induction fs as [|[g v] fs IH]; [reflexivity|]. cbn [update]. destruct (fld_beq f g) eqn:E; cbn [update]; rewrite E; [reflexivity|].
  now rewrite IH.
Qed.
Lemma lookup_update f g x fs : lookup g (update f x fs) =
  if fld_beq f g then (match lookup f fs with Some _ => Some x | None => None end) else lookup g fs.
Proof.
  induction fs as [|[h v] fs IH]; [cbn; now destruct (fld_beq f g)|]. cbn [update lookup].
  destruct (fld_beq f h) eqn:FH; cbn [lookup].
  - apply fld_beq_eq in FH as <-. destruct (fld_beq g f) eqn:GF.
    + apply fld_beq_eq in GF as ->. now rewrite fld_beq_refl.
    + destruct (fld_beq f g) eqn:FG; [|reflexivity]. apply fld_beq_eq in FG as ->. rewrite fld_beq_refl in GF. discriminate.
  - destruct (fld_beq g h) eqn:GH.
    + apply fld_beq_eq in GH as ->. rewrite FH. reflexivity.
    + rewrite IH. destruct (fld_beq f g); reflexivity.
Qed.
Fixpoint tlookup (f : fld) (ts : list (fld * ty)) : option ty :=
  match ts with [] => None | (g, t) :: r => if fld_beq f g then Some t else tlookup f r end.
Lemma update_wts f v t fs ts : wts fs ts -> tlookup f ts = Some t -> wt v t -> wts (update f v fs) ts.
Proof.
  induction 1 as [|g y s fs ts WY W IH]; intros L WV; [discriminate|]. cbn [update tlookup] in *.
  destruct (fld_beq f g); [injection L as ->; constructor; assumption|constructor; auto].
Qed.
Lemma wts_lookup f t fs ts : wts fs ts -> tlookup f ts = Some t -> exists v, lookup f fs = Some v /\ wt v t.
Proof.
  induction 1 as [|g y s fs ts WY W IH]; intro L; [discriminate|]. cbn [lookup tlookup] in *. destruct (fld_beq f g); [|auto].
  injection L as ->. eauto.
Qed.
Lemma update_caf f v fs y : lookup f fs = Some y -> forall x, caf x (update f v fs) + ca x y = caf x fs + ca x v.
Proof.
  intros L x. induction fs as [|[g w] fs IH]; [discriminate|]. cbn [update lookup caf] in *. destruct (fld_beq f g).
  - injection L as ->. cbn [caf]. lia.
  - cbn [caf]. specialize (IH L). lia.
Qed.
Lemma update_cpf f v fs y : lookup f fs = Some y -> forall q, cpf q (update f v fs) + cp q y = cpf q fs + cp q v.
Proof.
  intros L q. induction fs as [|[g w] fs IH]; [discriminate|]. cbn [update lookup cpf] in *. destruct (fld_beq f g).
  - injection L as ->. cbn [cpf]. lia.
  - cbn [cpf]. specialize (IH L). lia.
Qed.
Lemma expr_ival s : fst (shape_def s) = CExpr -> tlookup F_ival (snd (shape_def s)) = Some TInt.
Proof.
  assert (A : forallb (fun s => match fst (shape_def s) with CExpr => match tlookup F_ival (snd (shape_def s)) with Some TInt => true | _ => false end
                      | _ => true end) all_shapes = true) by (vm_compute; reflexivity).
  rewrite forallb_forall in A. specialize (A s (all_shapes_In s)). intro E. rewrite E in A.
  destruct (tlookup F_ival (snd (shape_def s))) as [[]|]; try discriminate A. reflexivity.
Qed.
Lemma erase_update n fs : erase_fields (update F_ival (VInt n) fs) = update F_ival (VInt n) (erase_fields fs).
Proof.
  induction fs as [|[g y] fs IH]; [reflexivity|]. cbn [update erase_fields map fst snd].
  destruct (fld_beq F_ival g) eqn:E; [apply fld_beq_eq in E as <-; reflexivity|]. unfold erase_fields in *. cbn [map fst snd]. now rewrite IH.
Qed.
Lemma lookup_on_fields g f fs : lookup f (on_fields g fs) = option_map g (lookup f fs).
Proof. induction fs as [|[h y] fs IH]; [reflexivity|]. cbn. now destruct (fld_beq f h). Qed.
Lemma is_param_some fs z : is_param fs = Some z -> lookup F_type fs = Some (VEnum EExprType 7) /\ lookup F_ival2 fs = Some (VInt z).
Proof.
  unfold is_param. destruct (lookup F_type fs) as [[| | | |e n| | | | |]|]; try discriminate. destruct e; try discriminate.
  destruct n as [|[[[]|[]|]|[[]|[]|]|]]; try discriminate. destruct (lookup F_ival2 fs) as [[]|]; try discriminate.
  injection 1 as ->. auto.
Qed.
Lemma is_param_on g fs : (forall z, g (VInt z) = VInt z) -> (forall e n, g (VEnum e n) = VEnum e n) ->
  (forall z v, g v = VInt z -> v = VInt z) -> (forall e n v, g v = VEnum e n -> v = VEnum e n) -> is_param (on_fields g fs) = is_param fs.
Proof.
  intros G1 G2 G3 G4. unfold is_param. rewrite !lookup_on_fields.
  destruct (lookup F_type fs) as [v|] eqn:E1; cbn [option_map]; [|reflexivity].
  destruct (lookup F_ival2 fs) as [w|] eqn:E2; cbn [option_map].
  - destruct (g v) as [| | | |e n| | | | |] eqn:GV; destruct v as [| | | |e0 n0| | | | |];
      try reflexivity; try (rewrite G2 in GV; discriminate GV); try (apply G4 in GV; discriminate GV).
    apply G4 in GV. injection GV as -> ->. destruct e; try reflexivity. destruct n as [|[[[]|[]|]|[[]|[]|]|]]; try reflexivity.
    destruct (g w) eqn:GW; destruct w; try reflexivity; try (rewrite G1 in GW; discriminate GW); try (apply G3 in GW; discriminate GW).
    apply G3 in GW. congruence.
  - destruct (g v) as [| | | |e n| | | | |] eqn:GV; destruct v as [| | | |e0 n0| | | | |]; try reflexivity; 
      try (destruct e; try reflexivity; destruct n as [|[[[]|[]|]|[[]|[]|]|]]; reflexivity);
      try (destruct e0; try reflexivity; destruct n0 as [|[[[]|[]|]|[[]|[]|]|]]; reflexivity).
    destruct e, e0; try reflexivity; destruct n as [|[[[]|[]|]|[[]|[]|]|]], n0 as [|[[[]|[]|]|[[]|[]|]|]]; reflexivity.
Qed.
Lemma is_param_poke a f x fs : is_param (on_fields (poke a f x) fs) = is_param fs.
Proof.
  apply is_param_on; [reflexivity|reflexivity|intros z [] E; try discriminate E; exact E|intros e n [] E; try discriminate E; exact E].
Qed.
Lemma is_param_update n fs : is_param (update F_ival (VInt n) fs) = is_param fs.
Proof. unfold is_param. rewrite !lookup_update. reflexivity. Qed.

(** ** One assignment *)
Definition poked (a : N) (n : Z) (v : val) : val := poke a F_ival (VInt n) v.
Lemma poked_ok :
  (forall v t, wt v t -> forall a z n, ca a v <= cp (a, z) v ->
     wt (poked a n v) t /\ (forall x, ca x (poked a n v) = ca x v) /\ (forall q, cp q (poked a n v) = cp q v) /\
     erase (poked a n v) = erase v) /\
  (forall l t, wtl l t -> forall a z n, cas a l <= cps (a, z) l ->
     wtl (map (poked a n) l) t /\ (forall x, cas x (map (poked a n) l) = cas x l) /\
     (forall q, cps q (map (poked a n) l) = cps q l) /\ map erase (map (poked a n) l) = map erase l) /\
  (forall fs ts, wts fs ts -> forall a z n, caf a fs <= cpf (a, z) fs ->
     wts (on_fields (poked a n) fs) ts /\ (forall x, caf x (on_fields (poked a n) fs) = caf x fs) /\
     (forall q, cpf q (on_fields (poked a n) fs) = cpf q fs) /\ erase_fields (on_fields (poked a n) fs) = erase_fields fs).
Proof.
  apply wt_mutind.
  - intros a z n _. repeat split; constructor.
  - intros a z n _. repeat split; constructor.
  - intros i a z n _. repeat split; constructor.
  - intros b a z n _. repeat split; constructor.
  - intros t a z n _. repeat split; constructor.
  - intros b s a z n _. repeat split; constructor.
  - intros e k l I a z n _. repeat split. constructor. exact I.
  - intros t a z n _. repeat split; constructor.
  - intros v t W IH a z n C. destruct (IH a z n C) as (A1 & A2 & A3 & A4). repeat split; auto. apply wt_some. exact A1.
  - intros b l t W IH a z n C. rewrite ca_vec, cp_vec in C. destruct (IH a z n) as (A1 & A2 & A3 & A4); [lia|].
    change (poked a n (VVec b l)) with (VVec b (map (poked a n) l)). repeat split.
    + constructor. exact A1.
    + intro x. rewrite !ca_vec, A2. reflexivity.
    + intro q. rewrite !cp_vec. auto.
    + cbn [erase]. now rewrite A4.
  - intros fs ts W IH a z n C. rewrite ca_rec, cp_rec in C. destruct (IH a z n C) as (A1 & A2 & A3 & A4).
    assert (PE : poked a n (VRec fs) = VRec (on_fields (poked a n) fs)) by apply poke_rec. rewrite PE. repeat split.
    + constructor. exact A1.
    + intro x. rewrite !ca_rec. auto.
    + intro q. rewrite !cp_rec. auto.
    + rewrite !erase_rec_def, A4. reflexivity.
  - intros b s fs l I W IH a z n C. rewrite ca_obj, cp_obj in C.
    assert (CF : cpf (a, z) fs <= caf a fs).
    { apply (@cpf_le (a, z)). clear. induction fs; constructor; [apply (@cp_le_ca (a, z))|assumption]. }
    assert (CO : pobj (a, z) b (fst (shape_def s)) fs <= ind b a).
    { unfold pobj, pind, ind. destruct (fst (shape_def s)); try lia. destruct (is_param fs); [|lia]. cbn [fst]. destruct (b =? a)%N; [|cbn; lia].
      destruct (_ && _); lia. }
    destruct (IH a z n) as (A1 & A2 & A3 & A4); [lia|].
    assert (PE : poked a n (VObj b (fst (shape_def s)) fs) = VObj b (fst (shape_def s)) (if N.eqb a b then update F_ival (VInt n) (on_fields (poked a n) fs)
      else on_fields (poked a n) fs)) by apply poke_obj. rewrite PE.
    destruct (N.eqb_spec a b) as [<-|NE].
    + rewrite ind_refl in C, CO. assert (PO : pobj (a, z) a (fst (shape_def s)) fs = 1) by lia.
      assert (E : fst (shape_def s) = CExpr).
      { unfold pobj in PO. destruct (fst (shape_def s)); try discriminate PO. reflexivity. }
      pose proof (expr_ival E) as L. destruct (wts_lookup A1 L) as (y & LY & WY). apply wt_int_inv in WY as (i & ->).
      assert (IP : is_param fs = Some z).
      { unfold pobj in PO. rewrite E in PO. unfold pind in PO. destruct (is_param fs) as [z'|]; [|discriminate].
        cbn [fst snd] in PO. rewrite N.eqb_refl in PO. cbn [andb] in PO. destruct (z' =? z)%Z eqn:EZ; [apply Z.eqb_eq in EZ; congruence|discriminate PO]. }
      repeat split.
      * constructor; [exact I|]. eapply update_wts; [exact A1|exact L|constructor].
      * intro x. rewrite !ca_obj. pose proof (update_caf (VInt n) LY x) as U. rewrite A2 in U. cbn [ca] in U. lia.
      * intro q. rewrite !cp_obj. pose proof (update_cpf (VInt n) LY q) as U. rewrite A3 in U. cbn [cp] in U.
        assert (PB : pobj q a (fst (shape_def s)) (update F_ival (VInt n) (on_fields (poked a n) fs)) = pobj q a (fst (shape_def s)) fs).
        { unfold pobj. rewrite E. unfold pind. rewrite is_param_update. unfold poked. rewrite is_param_poke. reflexivity. }
        lia.
      * rewrite !erase_obj_def, E, erase_update, A4. f_equal. unfold erase_obj, param_index. rewrite !lookup_update.
        change (fld_beq F_ival F_type) with false. change (fld_beq F_ival F_ival2) with false. cbn match.
        apply is_param_some in IP as [P1 P2].
        assert (L1 : lookup F_type (erase_fields fs) = Some (VEnum EExprType 7)).
        { clear -P1. induction fs as [|[g y] fs IH]; [discriminate|]. cbn [lookup erase_fields map fst snd] in *.
          destruct (fld_beq F_type g) eqn:EG; [|auto]. apply fld_beq_eq in EG as <-. injection P1 as ->. reflexivity. }
        assert (L2 : lookup F_ival2 (erase_fields fs) = Some (VInt z)).
        { clear -P2. induction fs as [|[g y] fs IH]; [discriminate|]. cbn [lookup erase_fields map fst snd] in *.
          destruct (fld_beq F_ival2 g) eqn:EG; [|auto]. apply fld_beq_eq in EG as <-. injection P2 as ->. reflexivity. }
        rewrite L1, L2. apply update_update.
    + repeat split.
      * constructor; [exact I|exact A1].
      * intro x. rewrite !ca_obj, A2. reflexivity.
      * intro q. rewrite !cp_obj, A3. f_equal. unfold pobj, pind. unfold poked. rewrite is_param_poke. reflexivity.
      * rewrite !erase_obj_def, A4. reflexivity.
  - intros t a z n _. repeat split; constructor.
  - intros v l t WV IHv W IHl a z n C. cbn [cas cps] in C. pose proof (@cp_le_ca (a, z) v) as C1. cbn [fst] in C1.
    assert (C2 : cps (a, z) l <= cas a l).
    { clear. induction l; cbn [cas cps]; [lia|]. pose proof (@cp_le_ca (a, z) a0) as C1. cbn [fst] in C1. lia. }
    destruct (IHv a z n) as (A1 & A2 & A3 & A4); [lia|]. destruct (IHl a z n) as (B1 & B2 & B3 & B4); [lia|]. cbn [map cas cps].
    repeat split; [constructor; assumption|intro x; rewrite A2, B2; reflexivity|intro q; rewrite A3, B3; reflexivity|now rewrite A4, B4].
  - intros a z n _. repeat split; constructor.
  - intros f v t fs ts WV IHv W IHl a z n C. cbn [caf cpf] in C. pose proof (@cp_le_ca (a, z) v) as C1. cbn [fst] in C1.
    assert (C2 : cpf (a, z) fs <= caf a fs).
    { apply (@cpf_le (a, z)). clear. induction fs; constructor; [apply (@cp_le_ca (a, z))|assumption]. }
    destruct (IHv a z n) as (A1 & A2 & A3 & A4); [lia|]. destruct (IHl a z n) as (B1 & B2 & B3 & B4); [lia|].
    cbn [on_fields map fst snd caf cpf]. fold (on_fields (poked a n) fs).
    repeat split; [constructor; assumption|intro x; rewrite A2, B2; reflexivity|intro q; rewrite A3, B3; reflexivity|].
    unfold erase_fields in *. cbn [map fst snd]. now rewrite A4, B4.
Qed.
Lemma poked_obj a n b c fs : poked a n (VObj b c fs) =
  VObj b c (if N.eqb a b then update F_ival (VInt n) (on_fields (poked a n) fs) else on_fields (poked a n) fs).
Proof. apply poke_obj. Qed.
Lemma poked_rec a n fs : poked a n (VRec fs) = VRec (on_fields (poked a n) fs).
Proof. apply poke_rec. Qed.
Lemma poke_absent a n v : ca a v = 0 -> poked a n v = v.
Proof.
  induction v as [| | | | | | |b c fs H|b l H|fs H] using val_ind2; intro C; try reflexivity.
  - rewrite ca_obj in C. rewrite poked_obj.
    destruct (N.eqb_spec a b) as [->|]; [rewrite ind_refl in C; lia|]. f_equal. assert (C' : caf a fs = 0) by lia. clear C.
    induction fs as [|[g y] fs IH]; [reflexivity|]. cbn [caf on_fields map fst snd] in *. inversion H; subst.
    cbn [snd] in H2. rewrite H2 by lia. f_equal. apply IH; [assumption|lia].
  - rewrite ca_vec in C. change (poked a n (VVec b l)) with (VVec b (map (poked a n) l)). f_equal.
    assert (C' : cas a l = 0) by lia. clear C. induction l as [|y l IH]; [reflexivity|]. cbn [cas map] in *. inversion H; subst.
    rewrite H2 by lia. f_equal. apply IH; [assumption|lia].
  - rewrite ca_rec in C. rewrite poked_rec. f_equal.
    induction fs as [|[g y] fs IH]; [reflexivity|]. cbn [caf on_fields map fst snd] in *. inversion H; subst.
    cbn [snd] in H2. rewrite H2 by lia. f_equal. apply IH; [assumption|lia].
Qed.
Lemma poke_absents a n l : cas a l = 0 -> map (poked a n) l = l.
Proof. induction l as [|y l IH]; intro C; [reflexivity|]. cbn [cas map] in *. rewrite poke_absent, IH by lia. reflexivity. Qed.

(** ** All parameters *)
Fixpoint pokes (ps : list N) (id : Z) (l : list val) : list val :=
  match ps with [] => l | a :: ps' => pokes ps' (id + 1)%Z (map (poked a id) l) end.
Fixpoint numbers (ps : list N) (id : Z) : list (N * Z) := match ps with [] => [] | a :: ps' => (a, id) :: numbers ps' (id + 1)%Z end.
(** Every parameter expression below [lim] has its index as ival. *)
Fixpoint numbered (lim : Z) (v : val) : Prop :=
  match v with
  | VObj _ c fs =>
    (c = CExpr -> forall z, is_param fs = Some z -> (z < lim)%Z -> lookup F_ival fs = Some (VInt z)) /\
    (fix go (fs : list (fld * val)) : Prop := match fs with [] => True | (_, y) :: r => numbered lim y /\ go r end) fs
  | VVec _ l => (fix go (l : list val) : Prop := match l with [] => True | y :: r => numbered lim y /\ go r end) l
  | VRec fs => (fix go (fs : list (fld * val)) : Prop := match fs with [] => True | (_, y) :: r => numbered lim y /\ go r end) fs
  | _ => True
  end.
Definition numberedf lim := fix go (fs : list (fld * val)) : Prop := match fs with [] => True | (_, y) :: r => numbered lim y /\ go r end.
Definition numbereds lim := fix go (l : list val) : Prop := match l with [] => True | y :: r => numbered lim y /\ go r end.
Lemma cpf_le' q fs : cpf q fs <= caf (fst q) fs.
Proof. apply cpf_le. clear. induction fs; constructor; [apply cp_le_ca|assumption]. Qed.
Lemma cps_le' q l : cps q l <= cas (fst q) l.
Proof. induction l as [|v l IH]; cbn [cps cas]; [lia|]. pose proof (cp_le_ca q v). lia. Qed.
Lemma obj_fields v ty : wt v ty -> match v with VObj b c fs => exists ts, wts fs ts /\ (c = CExpr -> tlookup F_ival ts = Some TInt) | _ => True end.
Proof. induction 1; try exact I; [assumption|]. exists (snd (shape_def s)). split; [assumption|apply expr_ival]. Qed.
Lemma vec_fields v ty : wt v ty -> match v with VVec b l => exists t', wtl l t' | _ => True end.
Proof. induction 1; try exact I; [assumption|]. eauto. Qed.
Lemma rec_fields v ty : wt v ty -> match v with VRec fs => exists ts, wts fs ts | _ => True end.
Proof. induction 1; try exact I; [assumption|]. eauto. Qed.
Lemma numbered_poke a n v : ca a v <= cp (a, n) v -> (forall b, cp (b, n) v <= ind a b) -> forall t, wt v t -> numbered n v -> numbered (n + 1) (poked a n v).
Proof.
  induction v as [| | | | | | |b c fs H|b l H|fs H] using val_ind2; intros C U ty WT NV; try exact I.
  - rewrite poked_obj.
    rewrite ca_obj, cp_obj in C. pose proof (cpf_le' (a, n) fs) as CF. cbn [fst] in CF.
    assert (CO : pobj (a, n) b c fs <= ind b a).
    { unfold pobj, pind, ind. destruct c; try lia. destruct (is_param fs); [|lia]. cbn [fst]. destruct (b =? a)%N; [|cbn; lia].
      destruct (_ && _); lia. }
    assert (UF : forall x, cpf (x, n) fs <= ind a x) by (intro x; specialize (U x); rewrite cp_obj in U; lia).
    assert (UO : pobj (b, n) b c fs <= ind a b) by (specialize (U b); rewrite cp_obj in U; lia).
    destruct NV as [N1 N2]. change (numberedf n fs) in N2.
    assert (WF : exists ts, wts fs ts /\ (c = CExpr -> tlookup F_ival ts = Some TInt)).
    { exact (obj_fields WT). }
    destruct WF as (ts & WF & LT).
    assert (NF : numberedf (n + 1) (on_fields (poked a n) fs)).
    { assert (CF' : caf a fs <= cpf (a, n) fs) by lia. clear -H CF' UF N2 WF. revert ts WF. induction fs as [|[g y] fs IH]; intros ts WF; [exact I|].
      inversion H as [|? ? H1 H2]; subst. inversion WF; subst. cbn [caf cpf on_fields map fst snd numberedf] in *. destruct N2 as [N2 N3].
      pose proof (cp_le_ca (a, n) y) as P1. pose proof (cpf_le' (a, n) fs) as P2. cbn [fst] in P1, P2. split.
      - eapply H1; [lia|intro x; specialize (UF x); lia|eassumption|exact N2].
      - eapply IH; try eassumption; try lia; intro x; specialize (UF x); lia. }
    assert (NU : forall y, lookup F_ival (on_fields (poked a n) fs) = Some y -> numberedf (n + 1) (update F_ival (VInt n) (on_fields (poked a n) fs))).
    { intros y _. clear -NF. induction (on_fields (poked a n) fs) as [|[g w] r IH]; [exact I|]. cbn [update numberedf] in *.
      destruct NF as [NF1 NF2]. destruct (fld_beq F_ival g); cbn [numberedf]; (split; [|auto]); [exact I|exact NF1]. }
    cbn [numbered]. destruct (N.eqb_spec a b) as [<-|NE].
    + rewrite ind_refl in C. assert (PO : pobj (a, n) a c fs = 1) by (rewrite ind_refl in CO; lia).
      assert (E : c = CExpr) by (unfold pobj in PO; destruct c; try discriminate PO; reflexivity). subst c.
      assert (IP : is_param fs = Some n).
      { unfold pobj, pind in PO. destruct (is_param fs) as [z'|]; [|discriminate].
        cbn [fst snd] in PO. rewrite N.eqb_refl in PO. cbn [andb] in PO. destruct (z' =? n)%Z eqn:EZ; [apply Z.eqb_eq in EZ; congruence|discriminate PO]. }
      destruct (wts_lookup WF (LT eq_refl)) as (y & LY & _).
      assert (LY' : lookup F_ival (on_fields (poked a n) fs) = Some (poked a n y)) by (rewrite lookup_on_fields, LY; reflexivity).
      split; [|exact (NU _ LY')]. intros _ z IZ _. rewrite is_param_update in IZ. unfold poked in IZ. rewrite is_param_poke, IP in IZ.
      injection IZ as <-. rewrite lookup_update, LY'. reflexivity.
    + split; [|exact NF]. intros E z IZ LZ. unfold poked in IZ. rewrite is_param_poke in IZ. rewrite lookup_on_fields.
      assert (ZN : z <> n).
      { intros ->. subst c. unfold pobj, pind in UO. rewrite IZ in UO. cbn [fst snd] in UO. rewrite N.eqb_refl, Z.eqb_refl in UO.
        cbn [andb] in UO. rewrite (ind_neq NE) in UO. lia. }
      rewrite (N1 E z IZ) by lia. reflexivity.
  - change (poked a n (VVec b l)) with (VVec b (map (poked a n) l)). rewrite ca_vec, cp_vec in C.
    assert (U' : forall x, cps (x, n) l <= ind a x) by (intro x; specialize (U x); rewrite cp_vec in U; lia).
    assert (WL : exists t', wtl l t').
    { exact (vec_fields WT). }
    destruct WL as (t' & WL). change (numbereds n l) in NV. change (numbereds (n + 1) (map (poked a n) l)).
    assert (C' : cas a l <= cps (a, n) l) by lia. clear C U WT. induction l as [|y l IH]; [exact I|].
    inversion H as [|? ? H1 H2]; subst. inversion WL; subst. cbn [cas cps map numbereds] in *. destruct NV as [N2 N3].
    pose proof (cp_le_ca (a, n) y) as P1. pose proof (cps_le' (a, n) l) as P2. cbn [fst] in P1, P2. split.
    + eapply H1; [lia|intro x; specialize (U' x); lia|eassumption|exact N2].
    + eapply IH; try eassumption; try lia; intro x; specialize (U' x); lia.
  - rewrite poked_rec. rewrite ca_rec, cp_rec in C.
    assert (U' : forall x, cpf (x, n) fs <= ind a x) by (intro x; specialize (U x); rewrite cp_rec in U; lia).
    assert (WL : exists ts, wts fs ts).
    { exact (rec_fields WT). }
    destruct WL as (ts & WL). change (numberedf n fs) in NV. change (numberedf (n + 1) (on_fields (poked a n) fs)).
    clear U WT. revert ts WL. induction fs as [|[g y] fs IH]; intros ts WL; [exact I|].
    inversion H as [|? ? H1 H2]; subst. inversion WL; subst. cbn [caf cpf on_fields map fst snd numberedf] in *. destruct NV as [N2 N3].
    pose proof (cp_le_ca (a, n) y) as P1. pose proof (cpf_le' (a, n) fs) as P2. cbn [fst] in P1, P2. split.
    + eapply H1; [lia|intro x; specialize (U' x); lia|eassumption|exact N2].
    + eapply IH; try eassumption; try lia; intro x; specialize (U' x); lia.
Qed.
Lemma numbereds_poke a n l t : cas a l <= cps (a, n) l -> (forall b, cps (b, n) l <= ind a b) -> wtl l t -> numbereds n l ->
  numbereds (n + 1) (map (poked a n) l).
Proof.
  intros C U W. revert C U. induction W as [t|v l t WV W IH]; intros C U NV; [exact I|]. cbn [cas cps map] in *. destruct NV as [N1 N2].
  pose proof (cp_le_ca (a, n) v) as P1. pose proof (cps_le' (a, n) l) as P2. cbn [fst] in P1, P2. split.
  - eapply numbered_poke; [lia|intro x; specialize (U x); lia|eassumption|exact N1].
  - apply IH; [lia|intro x; specialize (U x); lia|exact N2].
Qed.
Lemma pokes_ok ps : forall id l t, wtl l t -> (forall i a, nth_error ps i = Some a -> cas a l <= cps (a, (id + Z.of_nat i)%Z) l) ->
  wtl (pokes ps id l) t /\ (forall x, cas x (pokes ps id l) = cas x l) /\ (forall q, cps q (pokes ps id l) = cps q l) /\
  map erase (pokes ps id l) = map erase l.
Proof.
  induction ps as [|a ps IH]; intros id l t W C; [cbn; auto|]. cbn [pokes].
  destruct (proj1 (proj2 poked_ok) l t W a id id) as (A1 & A2 & A3 & A4).
  { specialize (C 0 a eq_refl). rewrite Z.add_0_r in C. exact C. }
  destruct (IH (id + 1)%Z (map (poked a id) l) t A1) as (B1 & B2 & B3 & B4).
  { intros i b E. specialize (C (S i) b E). rewrite A2, A3. replace (id + 1 + Z.of_nat i)%Z with (id + Z.of_nat (S i))%Z by lia. exact C. }
  split; [exact B1|]. split; [intro x; rewrite B2; apply A2|]. split; [intro q; rewrite B3; apply A3|]. now rewrite B4.
Qed.
Lemma pokes_numbered ps : forall id l t, wtl l t -> (forall i a, nth_error ps i = Some a ->
    cas a l <= cps (a, (id + Z.of_nat i)%Z) l /\ forall b, cps (b, (id + Z.of_nat i)%Z) l <= ind a b) ->
  numbereds id l -> numbereds (id + Z.of_nat (List.length ps)) (pokes ps id l).
Proof.
  induction ps as [|a ps IH]; intros id l t W C NV; [cbn [pokes List.length]; now rewrite Z.add_0_r|]. cbn [pokes List.length].
  destruct (C 0 a eq_refl) as [C1 C2]. rewrite Z.add_0_r in C1, C2.
  destruct (proj1 (proj2 poked_ok) l t W a id id C1) as (A1 & A2 & A3 & A4).
  replace (id + Z.of_nat (S (List.length ps)))%Z with (id + 1 + Z.of_nat (List.length ps))%Z by lia. apply (IH _ _ t A1).
  - intros i b E. destruct (C (S i) b E) as [D1 D2]. replace (id + 1 + Z.of_nat i)%Z with (id + Z.of_nat (S i))%Z by lia.
    split; [rewrite A2, A3; exact D1|]. intro x. rewrite A3. apply D2.
  - eapply numbereds_poke; eassumption.
Qed.
Lemma pokes_absent ps : forall id l, (forall a, In a ps -> cas a l = 0) -> pokes ps id l = l.
Proof.
  induction ps as [|a ps IH]; intros id l C; [reflexivity|]. cbn [pokes]. rewrite poke_absents by (apply C; now left).
  apply IH. intros b I. apply C. now right.
Qed.
Lemma pokes_app ps : forall id l m, pokes ps id (l ++ m) = pokes ps id l ++ pokes ps id m.
Proof. induction ps as [|a ps IH]; intros id l m; [reflexivity|]. cbn [pokes]. now rewrite map_app, IH. Qed.

Lemma insert_last p l : Forall (fun q => (snd q <= snd p)%Z) l -> insert_param p l = l ++ [p].
Proof.
  induction 1 as [|q l Q H IH]; [reflexivity|]. cbn [insert_param]. destruct (Z.ltb_spec (snd p) (snd q)); [lia|]. now rewrite IH.
Qed.
Lemma number_params_ok ps : forall id e F, heap e F -> (forall a, In a ps -> 1 <= F a) ->
  Forall (fun p => 1 <= F (fst p) /\ (snd p < id)%Z) (e_params e) ->
  number_params ps id e = ROk tt (set_params (e_params e ++ numbers ps id) (set_stmts (pokes ps id (e_stmts e)) e)).
Proof.
  induction ps as [|a ps IH]; intros id e F H L P.
  - cbn [number_params pokes numbers]. rewrite app_nil_r. destruct e; reflexivity.
  - cbn [number_params pokes numbers]. unfold bind at 1. rewrite (check_spec H (L a (or_introl eq_refl))).
    unfold bind at 1. set (e1 := set_stmts (map (poked a id) (e_stmts e)) e).
    assert (H1 : heap e1 F) by (destruct H; constructor; assumption).
    unfold bind at 1. assert (AP : addParameter a id e1 = ROk tt (set_params (e_params e ++ [(a, id)]) e1)).
    { unfold addParameter. change (e_params e1) with (e_params e). destruct (e_params e) as [|p l] eqn:EP; [reflexivity|].
      assert (LV : forallb (fun p : N * Z => memN (fst p) (e_live e1)) ((a, id) :: p :: l) = true).
      { apply forallb_forall. intros q [<-|I]; [apply (heap_mem H1), L; now left|].
        rewrite Forall_forall in P. apply (heap_mem H1), P, I. }
      rewrite LV. rewrite insert_last; [reflexivity|]. eapply Forall_impl; [|exact P]. cbn [snd]. intros q Q. lia. }
    change (set_stmts (map (poke a F_ival (VInt id)) (e_stmts e)) e) with e1. rewrite AP.
    rewrite IH with (F := F).
    + unfold e1. cbn [e_params set_params e_stmts set_stmts]. rewrite <- app_assoc. destruct e; reflexivity.
    + destruct H1; constructor; assumption.
    + intros b I. apply L. now right.
    + cbn [e_params set_params]. apply Forall_app. split.
      * eapply Forall_impl; [|exact P]. cbn beta. intros q Q. lia.
      * constructor; [|constructor]. cbn [fst snd]. split; [apply L; now left|lia].
Qed.
(** A parameter list as [yyloc.param_list] after the parse. *)
Definition listed_in (ps : list N) (q : N * Z) : nat :=
  if (0 <=? snd q)%Z then match nth_error ps (Z.to_nat (snd q)) with Some a => ind a (fst q) | None => 0 end else 0.
(** The last action: the statements are moved into the result and their parameters numbered. *)
Record act2_ok (l : list val) (e : env) (f : N -> nat) (e' : env) : Prop := {
  a2_stmts : exists l', e_stmts e' = e_stmts e ++ l' /\ wtl l' TFinal /\ map erase l' = map erase l /\
    (forall x, cas x l' = cas x l) /\ (forall q, cps q l' = cps q l) /\ numbereds (Z.of_nat (List.length (e_plist e))) l';
  a2_params : e_params e' = e_params e ++ numbers (e_plist e) 0;
  a2_heap : heap e' (fun x => cas x (e_stmts e') + f x);
  a2_err : err_eq e e';
  a2_loc : e_loc e' = e_loc e;
  a2_plist : e_plist e' = e_plist e;
  a2_lpos : e_lpos e' = e_lpos e }.
Lemma numbereds_zero l : (forall q, (snd q < 0)%Z -> cps q l = 0) -> numbereds 0 l.
Proof.
  assert (V : forall v, (forall q, (snd q < 0)%Z -> cp q v = 0) -> numbered 0 v).
  { induction v as [| | | | | | |b c fs H|b l' H|fs H] using val_ind2; intro C; try exact I.
    - split.
      + intros -> z IP LZ. specialize (C (b, z) LZ). rewrite cp_obj in C. unfold pobj, pind in C. rewrite IP in C.
        cbn [fst snd] in C. rewrite N.eqb_refl, Z.eqb_refl in C. discriminate C.
      + assert (C' : forall q, (snd q < 0)%Z -> cpf q fs = 0) by (intros q Q; specialize (C q Q); rewrite cp_obj in C; lia). clear C.
        change (numberedf 0 fs). induction fs as [|[g y] fs IH]; [exact I|]. inversion H; subst. cbn [cpf snd] in *. split.
        * apply H2. intros q Q. specialize (C' q Q). lia.
        * apply IH; [assumption|]. intros q Q. specialize (C' q Q). lia.
    - assert (C' : forall q, (snd q < 0)%Z -> cps q l' = 0) by (intros q Q; specialize (C q Q); rewrite cp_vec in C; lia). clear C.
      change (numbereds 0 l'). induction l' as [|y l' IH]; [exact I|]. inversion H; subst. cbn [cps] in *. split.
      + apply H2. intros q Q. specialize (C' q Q). lia.
      + apply IH; [assumption|]. intros q Q. specialize (C' q Q). lia.
    - assert (C' : forall q, (snd q < 0)%Z -> cpf q fs = 0) by (intros q Q; specialize (C q Q); rewrite cp_rec in C; lia). clear C.
      change (numberedf 0 fs). induction fs as [|[g y] fs IH]; [exact I|]. inversion H; subst. cbn [cpf snd] in *. split.
      + apply H2. intros q Q. specialize (C' q Q). lia.
      + apply IH; [assumption|]. intros q Q. specialize (C' q Q). lia. }
  induction l as [|v l IH]; intro C; [exact I|]. cbn [cps] in C. split.
  - apply V. intros q Q. specialize (C q Q). lia.
  - apply IH. intros q Q. specialize (C q Q). lia.
Qed.
Lemma act_2 l a e f o : wtl l TFinal -> heap e (fun x => ca x (VVec a l) + cas x (e_stmts e) + f x) ->
  (forall q, cps q l = listed e q) -> Forall (fun p => 1 <= cas (fst p) (e_stmts e) + f (fst p) /\ (snd p < 0)%Z) (e_params e) ->
  exists e', act 2 (VVec a l :: o) e = ROk VUninit e' /\ act2_ok l e f e'.
Proof.
  intros W H CL P. unfold act. cbn [nth Nat.pred]. unfold velems, bind at 1. 
  assert (LA : 1 <= ca a (VVec a l) + cas a (e_stmts e) + f a) by (rewrite ca_vec, ind_refl; lia).
  unfold bind at 1. rewrite (check_spec H LA). unfold ret at 1. unfold bind at 1.
  assert (LP : forall i b, nth_error (e_plist e) i = Some b -> cps (b, Z.of_nat i) l = 1).
  { intros i b E. rewrite CL. unfold listed. cbn [fst snd]. destruct (Z.leb_spec 0 (Z.of_nat i)); [|lia].
    rewrite Nat2Z.id, E. apply ind_refl. }
  assert (LC : forall b, In b (e_plist e) -> 1 <= cas b l).
  { intros b I. apply In_nth_error in I as (i & E). rewrite <- (LP i b E). apply (@cps_le' (b, Z.of_nat i)). }
  assert (L1 : forall b, cas b l + cas b (e_stmts e) + f b <= 1).
  { intro b. pose proof (heap_one H b) as O. cbn beta in O. rewrite ca_vec in O. lia. }
  set (e1 := set_stmts (e_stmts e ++ l) e).
  assert (H1 : heap e1 (fun x => ca x (VVec a l) + cas x (e_stmts e) + f x)) by (destruct H; constructor; assumption).
  unfold bind at 1. change (e_plist e1) with (e_plist e).
  rewrite (@number_params_ok (e_plist e) 0 e1 _ H1).
  2:{ intros b I. rewrite ca_vec. specialize (LC b I). lia. }
  2:{ eapply Forall_impl; [|exact P]. cbn beta. intros q Q. lia. }
  set (l' := pokes (e_plist e) 0 l).
  assert (ES : pokes (e_plist e) 0 (e_stmts e1) = e_stmts e ++ l').
  { unfold e1. cbn [e_stmts set_stmts]. rewrite pokes_app. f_equal. apply pokes_absent. intros b I. specialize (LC b I). specialize (L1 b). lia. }
  rewrite ES. set (e2 := set_params _ _).
  assert (H2 : heap e2 (fun x => ind a x + (cas x l + cas x (e_stmts e) + f x))).
  { eapply heap_ext with (f := fun x => ca x (VVec a l) + cas x (e_stmts e) + f x); [destruct H1; constructor; assumption|].
    intro x. rewrite ca_vec. lia. }
  destruct (@del_block_vec a l e2 _ H2) as (e3 & E3 & H3 & S3).
  unfold bind. rewrite E3. exists e3. split; [reflexivity|].
  assert (PK : forall i b, nth_error (e_plist e) i = Some b -> cas b l <= cps (b, (0 + Z.of_nat i)%Z) l /\
                 forall x, cps (x, (0 + Z.of_nat i)%Z) l <= ind b x).
  { intros i b E. rewrite Z.add_0_l. split; [rewrite (LP i b E); specialize (L1 b); lia|]. intro x. rewrite CL. unfold listed. cbn [fst snd].
    destruct (Z.leb_spec 0 (Z.of_nat i)); [|lia]. rewrite Nat2Z.id, E. lia. }
  destruct (@pokes_ok (e_plist e) 0 l TFinal W) as (A1 & A2 & A3 & A4); [intros i b E; apply (PK i b E)|].
  destruct S3 as ((S1 & S2 & S4 & S5 & S6) & S7). constructor.
  - exists l'. split; [rewrite S1; reflexivity|]. repeat split; auto.
    change (Z.of_nat (List.length (e_plist e))) with (0 + Z.of_nat (List.length (e_plist e)))%Z.
    eapply pokes_numbered; [exact W|exact PK|]. apply numbereds_zero. intros q Q. rewrite CL. unfold listed. destruct (Z.leb_spec 0 (snd q)); [lia|reflexivity].
  - rewrite S2. reflexivity.
  - rewrite S1. eapply heap_ext; [exact H3|]. intro x. cbn beta. change (e_stmts e2) with (e_stmts e ++ l'). rewrite cas_app. fold l' in A2. rewrite A2. lia.
  - exact S7.
  - rewrite S5. reflexivity.
  - rewrite S4. reflexivity.
  - rewrite S6. reflexivity.
Qed.
