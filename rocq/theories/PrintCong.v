(** The output of the printing functions (Print.v) does not depend on the fuel, nor on addresses; no code of /repo. *)
From Verif Require Import Base Ast Heap Actions ParseModel Grammar Sem Own Poke Print PropPrint.
From Coq Require Import String ZifyBool ZifyNat ZifyN. Import ListNotations.
Local Open Scope N_scope.

Lemma lookup_size f fs x : lookup f fs = Some x -> (vsize x <= fsize fs)%nat.
Proof. induction fs as [|[g y] fs IH]; [discriminate|]. cbn [lookup fsize]. destruct (fld_beq f g); [intro H; injection H as <-; lia|]. intro H. specialize (IH H). lia. Qed.
Lemma mem_size f v x : mem f v = Some x -> (vsize x < vsize v)%nat.
Proof.
  destruct v; try discriminate; cbn [mem]; intro H; apply lookup_size in H; [rewrite vsize_obj; lia|]. change (vsize (VRec fs)) with (S (fsize fs)). lia.
Qed.
Lemma items_size v l x : items_of v = Some l -> In x l -> (vsize x < vsize v)%nat.
Proof. destruct v; try discriminate. cbn [items_of]. intro H. injection H as <-. intro I. apply In_lsize in I. rewrite vsize_vec. lia. Qed.
Lemma cat_cong l l' : Forall2 eq l l' -> cat l = cat l'.
Proof. induction 1 as [|? ? ? ? -> _ IH]; [reflexivity|]. cbn [cat]. now rewrite IH. Qed.

Section Cong.
Variables (E : val -> val) (G : val -> Prop).
Hypotheses
  (Emem : forall f v, f <> F_stringLength -> G v -> mem f (E v) = option_map E (mem f v))
  (Gmem : forall f v x, G v -> mem f v = Some x -> G x)
  (Eitems : forall v, items_of (E v) = option_map (map E) (items_of v))
  (Gitems : forall v l x, G v -> items_of v = Some l -> In x l -> G x)
  (Epresent : forall v, present (E v) = present v) (Echars : forall v, chars (E v) = chars v) (Eint : forall v, int_of (E v) = int_of v)
  (Ebool : forall v, bool_of (E v) = bool_of v) (Edbl : forall v, double_of (E v) = double_of v) (Eenum : forall v, enum_of (E v) = enum_of v).

Lemma on_cong f v b b' : f <> F_stringLength -> G v -> (forall x, G x -> (vsize x < vsize v)%nat -> b x = b' (E x)) -> on f v b = on f (E v) b'.
Proof. intros F g H. unfold on. rewrite Emem by assumption. destruct (mem f v) as [x|] eqn:M; cbn [option_map obind]; [|reflexivity]. apply H; [eapply Gmem|eapply mem_size]; eassumption. Qed.
Lemma if_cong f v b b' : f <> F_stringLength -> G v -> (forall x, G x -> (vsize x < vsize v)%nat -> b x = b' (E x)) -> if_some f v b = if_some f (E v) b'.
Proof.
  intros F g H. unfold if_some. rewrite Emem by assumption. destruct (mem f v) as [x|] eqn:M; cbn [option_map obind]; [|reflexivity]. rewrite Epresent.
  destruct (present x) as [[|]|]; cbn [obind]; try reflexivity. apply H; [eapply Gmem|eapply mem_size]; eassumption.
Qed.
Lemma enum_cong f v (b b' : N -> prints) : f <> F_stringLength -> G v -> (forall z, b z = b' z) -> obind (obind (mem f v) enum_of) b = obind (obind (mem f (E v)) enum_of) b'.
Proof. intros F g H. rewrite Emem by assumption. destruct (mem f v) as [x|]; cbn [option_map obind]; [|reflexivity]. rewrite Eenum. destruct (enum_of x); cbn [obind]; auto. Qed.
Lemma present_cong v (b b' : bool -> prints) : (forall z, b z = b' z) -> obind (present v) b = obind (present (E v)) b'.
Proof. intro H. rewrite Epresent. destruct (present v); cbn [obind]; auto. Qed.
Lemma items_cong v (b b' : list val -> prints) : (forall l, items_of v = Some l -> b l = b' (map E l)) -> obind (items_of v) b = obind (items_of (E v)) b'.
Proof. intro H. rewrite Eitems. destruct (items_of v) as [l|]; cbn [option_map obind]; auto. Qed.
Lemma each_cong v l f f' : G v -> items_of v = Some l -> (forall x, G x -> (vsize x < vsize v)%nat -> f x = f' (E x)) -> each f l = each f' (map E l).
Proof.
  intros g I H. assert (A : forall x, In x l -> f x = f' (E x)) by (intros x X; apply H; [eapply Gitems|eapply items_size]; eassumption). clear -A.
  induction l as [|x l IH]; [reflexivity|]. cbn [each map]. rewrite (A x (or_introl eq_refl)), IH; [reflexivity|]. intros. apply A. now right.
Qed.
Lemma str_cong v i : inprint_str v i = inprint_str (E v) i. Proof. unfold inprint_str. now rewrite Echars. Qed.
Lemma int_cong v i : inprint_int v i = inprint_int (E v) i. Proof. unfold inprint_int. now rewrite Eint. Qed.
Lemma dbl_cong v i : inprint_dbl v i = inprint_dbl (E v) i. Proof. unfold inprint_dbl. now rewrite Edbl. Qed.
Lemma op_cong v i : inprint_op v i = inprint_op (E v) i. Proof. unfold inprint_op, named. now rewrite Eenum. Qed.
Lemma field_cong v i : inprint_field v i = inprint_field (E v) i. Proof. unfold inprint_field, named. now rewrite Eenum. Qed.
Lemma type_cong v i : G v -> inprint_type v i = inprint_type (E v) i.
Proof.
  intro g. unfold inprint_type. replace (show_type (E v)) with (show_type v); [reflexivity|]. unfold show_type. rewrite !Emem by (assumption || discriminate).
  destruct (mem F_data_type v) as [x|]; cbn [option_map obind]; [|reflexivity]. rewrite Eenum. destruct (enum_of x) as [n|]; cbn [obind]; [|reflexivity].
  destruct (mem F_length v) as [y|]; cbn [option_map obind]; [|reflexivity]. now rewrite Eint.
Qed.
Lemma bound_cong v : G v -> show_bound (E v) = show_bound v.
Proof.
  intro g. unfold show_bound. rewrite !Emem by (assumption || discriminate).
  destruct (mem F_type v) as [x|]; cbn [option_map obind]; [|reflexivity]. rewrite Eenum. destruct (enum_of x) as [n|]; cbn [obind]; [|reflexivity]. destruct (n =? 2); [reflexivity|].
  destruct (mem F_unbounded v) as [y|]; cbn [option_map obind]; [|reflexivity]. rewrite Ebool. destruct (bool_of y) as [[|]|]; cbn [obind]; try reflexivity.
  destruct (mem F_offset v) as [z|]; cbn [option_map obind]; [|reflexivity]. now rewrite Eint.
Qed.
Lemma frame_bound_cong f v (b b' : list piece -> prints) : f <> F_stringLength -> G v -> (forall l, b l = b' l) -> obind (obind (mem f v) show_bound) b = obind (obind (mem f (E v)) show_bound) b'.
Proof.
  intros F g H. rewrite Emem by assumption. destruct (mem f v) as [x|] eqn:M; cbn [option_map obind]; [|reflexivity]. rewrite bound_cong by (eapply Gmem; eassumption). destruct (show_bound x); cbn [obind]; auto.
Qed.

Ltac cong tac := repeat (first
  [ reflexivity
  | match goal with |- cat _ = cat _ => apply cat_cong; repeat apply Forall2_cons; try apply Forall2_nil end
  | apply str_cong | apply int_cong | apply dbl_cong | apply op_cong | apply field_cong | (apply type_cong; assumption)
  | match goal with |- on _ _ _ = on _ _ _ => apply on_cong; [discriminate|assumption|intros ? ? ?; cbn beta] end
  | match goal with |- if_some _ _ _ = if_some _ _ _ => apply if_cong; [discriminate|assumption|intros ? ? ?; cbn beta] end
  | match goal with |- obind (obind (mem _ _) enum_of) _ = _ => apply enum_cong; [discriminate|assumption|intro] end
  | match goal with |- obind (obind (mem _ _) show_bound) _ = _ => apply frame_bound_cong; [discriminate|assumption|intro] end
  | match goal with |- obind (present _) _ = _ => apply present_cong; intro end
  | match goal with |- obind (items_of _) _ = _ => apply items_cong; intros ? ? end
  | match goal with I : items_of ?v = Some ?l |- each _ ?l = _ => apply (each_cong v); [assumption|exact I|intros ? ? ?; cbn beta] end
  | tac
  | match goal with |- (if ?b then _ else _) = (if ?b then _ else _) => destruct b end
  | match goal with |- match ?x with _ => _ end = _ => destruct x end ]).
Lemma alias_cong v i : G v -> print_alias v i = print_alias (E v) i.
Proof. intro g. unfold print_alias. cong ltac:(fail). Qed.
Lemma locking_cong v i : G v -> print_locking v i = print_locking (E v) i.
Proof. intro g. unfold print_locking. cong ltac:(fail). Qed.
Lemma file_cong v i : G v -> print_file_type v i = print_file_type (E v) i.
Proof. intro g. unfold print_file_type. cong ltac:(fail). Qed.

Definition same (n m : nat) : Prop :=
  (forall v i, G v -> (vsize v < n)%nat -> (vsize v < m)%nat -> print_expr n v i = print_expr m (E v) i) /\ (forall v i, G v -> (vsize v < n)%nat -> (vsize v < m)%nat -> print_order n v i = print_order m (E v) i) /\
  (forall v i, G v -> (vsize v < n)%nat -> (vsize v < m)%nat -> print_window n v i = print_window m (E v) i) /\ (forall v i, G v -> (vsize v < n)%nat -> (vsize v < m)%nat -> print_ref n v i = print_ref m (E v) i) /\
  (forall v i, G v -> (vsize v < n)%nat -> (vsize v < m)%nat -> print_select n v i = print_select m (E v) i).
Lemma same_print : forall n m, same n m.
Proof.
  induction n as [|n IH]; [repeat split; intros; lia|]. destruct m as [|m]; [repeat split; intros; lia|]. destruct (IH m) as (PE & PO & PW & PR & PS). clear IH.
  assert (T : True) by exact Logic.I.
  repeat split; intros v i g Sn Sm.
  - cbn [print_expr]. cong ltac:(first [apply PE|apply PO|apply PW|apply PR|apply PS]; [assumption|lia|lia]).
  - cbn [print_order]. cong ltac:(first [apply PE|apply PO|apply PW|apply PR|apply PS]; [assumption|lia|lia]).
  - cbn [print_window]. cong ltac:(first [apply PE|apply PO|apply PW|apply PR|apply PS]; [assumption|lia|lia]).
  - cbn [print_ref]. cong ltac:(first [(apply alias_cong; assumption)|(first [apply PE|apply PO|apply PW|apply PR|apply PS]; [assumption|lia|lia])]).
  - cbn [print_select]. cong ltac:(first [(apply locking_cong; assumption)|(first [apply PE|apply PO|apply PW|apply PR|apply PS]; [assumption|lia|lia])]).
Qed.
End Cong.

(** The fuel does not matter. *)
Lemma enough n m : same (fun v => v) (fun _ => True) n m.
Proof.
  apply same_print; auto; intros; try (now destruct (mem f v)); try (now destruct (items_of v) as [l|]; cbn [option_map]; rewrite ?map_id); now cbn.
Qed.

(** ** Forgetting addresses *)
From Verif Require Import ParamProof.
(** Every parameter of [v] has its index in both members. *)
Definition settled (v : val) : Prop := Forall (fun t => exists z, snd (fst t) = Some (VInt z) /\ snd t = Some (VInt z)) (params_in v).
Lemma lookup_erase f fs : lookup f (erase_fields fs) = option_map (fun y => erase_scalar f (erase y)) (lookup f fs).
Proof.
  induction fs as [|[g y] fs IH]; [reflexivity|]. cbn [erase_fields map fst snd lookup]. destruct (fld_beq f g) eqn:E; [|exact IH]. apply fld_beq_eq in E as <-. reflexivity.
Qed.
Lemma erase_scalar_id f v : f <> F_stringLength -> erase_scalar f v = v.
Proof. intro N. destruct f; try reflexivity. now destruct N. Qed.
Lemma settled_fields fs f x : Forall (fun t => exists z, snd (fst t) = Some (VInt z) /\ snd t = Some (VInt z)) (paramsf fs) -> lookup f fs = Some x -> settled x.
Proof.
  unfold paramsf, settled. induction fs as [|[g y] fs IH]; [discriminate|]. cbn [flat_map snd lookup]. intros F L. apply Forall_app in F as [F1 F2]. destruct (fld_beq f g); [injection L as <-; exact F1|auto].
Qed.
Lemma erase_is_enum v e n : erase v = VEnum e n -> v = VEnum e n.
Proof. destruct v; try discriminate. auto. Qed.
Lemma erase_is_int v n : erase v = VInt n -> v = VInt n.
Proof. destruct v; try discriminate. auto. Qed.
Lemma settled_mem f v : f <> F_stringLength -> settled v -> mem f (erase v) = option_map erase (mem f v).
Proof.
  intros N Sv. destruct v; try reflexivity; [|rewrite erase_rec_def; cbn [mem]; rewrite lookup_erase; destruct (lookup f fs); cbn [option_map]; [now rewrite erase_scalar_id|reflexivity]].
  rewrite erase_obj_def. cbn [mem]. unfold settled in Sv. rewrite params_obj in Sv. apply Forall_app in Sv as [S1 _]. unfold erase_obj.
  assert (D : lookup f (erase_fields fs) = option_map erase (lookup f fs)) by (rewrite lookup_erase; destruct (lookup f fs); cbn [option_map]; [now rewrite erase_scalar_id|reflexivity]).
  destruct (param_index c (erase_fields fs)) as [z|] eqn:P; [|exact D].
  rewrite lookup_update. destruct (fld_beq F_ival f) eqn:E; [|exact D]. apply fld_beq_eq in E as <-.
  unfold param_index in P. destruct c; try discriminate P. rewrite !lookup_erase in P. destruct (lookup F_type fs) as [t|] eqn:Lt; [|discriminate P]. cbn [option_map] in P. rewrite (erase_scalar_id F_type) in P by discriminate.
  destruct (erase t) as [| | | |e n| | | | |] eqn:Et; try discriminate P. apply erase_is_enum in Et as ->.
  destruct e; try discriminate P. destruct n as [|n]; try discriminate P. do 3 (destruct n as [n|n|]; try discriminate P).
  destruct (lookup F_ival2 fs) as [w|] eqn:Lw; [|discriminate P]. cbn [option_map] in P. rewrite erase_scalar_id in P by discriminate.
  destruct (erase w) as [| |zz| | | | | | |] eqn:Ew; try discriminate P. injection P as ->. apply erase_is_int in Ew as ->. inversion S1 as [|? ? (z' & E1 & E2) _]; subst. cbn [fst snd] in E1, E2.
  injection E2 as <-. rewrite D, E1. reflexivity.
Qed.
Lemma fsize_update f x fs y : lookup f fs = Some y -> vsize x = vsize y -> fsize (update f x fs) = fsize fs.
Proof.
  intros L S. induction fs as [|[g w] fs IH]; [discriminate|]. cbn [lookup update] in *. destruct (fld_beq f g) eqn:E; [injection L as ->; cbn [fsize]; lia|]. cbn [fsize]. specialize (IH L). lia.
Qed.
Lemma vsize_scalar f v : vsize (erase_scalar f v) = vsize v.
Proof. destruct f; try reflexivity. destruct v; reflexivity. Qed.
Lemma settled_erase_obj a c fs : settled (VObj a c fs) -> fsize (erase_obj c (erase_fields fs)) = fsize (erase_fields fs).
Proof.
  intro Sv. unfold erase_obj. destruct (param_index c (erase_fields fs)) as [z|] eqn:P; [|reflexivity].
  pose proof (settled_mem F_ival (VObj a c fs) ltac:(discriminate) Sv) as M. rewrite erase_obj_def in M. cbn [mem] in M. unfold erase_obj in M. rewrite P in M.
  unfold settled in Sv. rewrite params_obj in Sv. apply Forall_app in Sv as [S1 _].
  unfold param_index in P. destruct c; try discriminate P. rewrite !lookup_erase in P. destruct (lookup F_type fs) as [t|] eqn:Lt; [|discriminate P]. cbn [option_map] in P. rewrite (erase_scalar_id F_type) in P by discriminate.
  destruct (erase t) as [| | | |e n| | | | |] eqn:Et; try discriminate P. apply erase_is_enum in Et as ->.
  destruct e; try discriminate P. destruct n as [|n]; try discriminate P. do 3 (destruct n as [n|n|]; try discriminate P).
  inversion S1 as [|? ? (z' & E1 & E2) _]; subst. cbn [fst snd] in E1, E2.
  apply (fsize_update _ _ _ (VInt z')); [|reflexivity]. rewrite lookup_erase, E1. reflexivity.
Qed.
Lemma vsize_erase v : settled v -> vsize (erase v) = vsize v.
Proof.
  induction v as [| | | | | | |b c fs H|b l H|fs H] using val_ind2; intro Sv; try reflexivity.
  - rewrite erase_obj_def, !vsize_obj. f_equal. rewrite (settled_erase_obj b) by exact Sv. unfold settled in Sv. rewrite params_obj in Sv. apply Forall_app in Sv as [_ S2]. clear -H S2.
    induction fs as [|[g y] fs IH]; [reflexivity|]. unfold paramsf in S2. cbn [flat_map snd] in S2. apply Forall_app in S2 as [S1 S2]. inversion H; subst. cbn [erase_fields map fst snd fsize]. rewrite vsize_scalar. cbn [snd] in H2. rewrite H2 by exact S1. f_equal. now apply IH.
  - cbn [erase]. rewrite !vsize_vec. f_equal. unfold settled in Sv. rewrite params_vec in Sv. clear -H Sv. induction l as [|y l IH]; [reflexivity|]. unfold params_of in Sv. cbn [flat_map] in Sv. apply Forall_app in Sv as [S1 S2]. inversion H; subst. cbn [map lsize]. rewrite H2 by exact S1. f_equal. now apply IH.
  - rewrite erase_rec_def. change (vsize (VRec fs)) with (S (fsize fs)). change (vsize (VRec (erase_fields fs))) with (S (fsize (erase_fields fs))). f_equal. unfold settled in Sv. rewrite params_rec in Sv. clear -H Sv.
    induction fs as [|[g y] fs IH]; [reflexivity|]. unfold paramsf in Sv. cbn [flat_map snd] in Sv. apply Forall_app in Sv as [S1 S2]. inversion H; subst. cbn [erase_fields map fst snd fsize]. rewrite vsize_scalar. cbn [snd] in H2. rewrite H2 by exact S1. f_equal. now apply IH.
Qed.
Lemma settled_sub f v x : settled v -> mem f v = Some x -> settled x.
Proof.
  unfold settled at 1. destruct v; try discriminate; cbn [mem]; intros F L; [rewrite params_obj in F; apply Forall_app in F as [_ F]|rewrite params_rec in F]; eapply settled_fields; eassumption.
Qed.
Lemma settled_item v l x : settled v -> items_of v = Some l -> In x l -> settled x.
Proof.
  unfold settled at 1. destruct v; try discriminate; cbn [items_of]. intros F L I. injection L as <-. rewrite params_vec in F. unfold params_of in F. unfold settled. rewrite Forall_forall in *. intros t T. apply F. apply in_flat_map. eauto.
Qed.
Lemma erased n m : same erase settled n m.
Proof.
  apply same_print; try (now intros []); [intros; now apply settled_mem|apply settled_sub|apply settled_item].
Qed.
Lemma erase_print v : settled v -> printStatementInfo (erase v) = printStatementInfo v.
Proof.
  intro Sv. unfold printStatementInfo, print_fuel. rewrite settled_mem by (discriminate || assumption). destruct (mem F_type_ v) as [t|]; [|reflexivity]. cbn [option_map obind].
  replace (enum_of (erase t)) with (enum_of t) by (now destruct t). destruct (enum_of t) as [n|]; [|reflexivity]. cbn [obind].
  assert (C : forall c, cast c (erase v) = option_map erase (cast c v)). { intro c. destruct v; try reflexivity. rewrite erase_obj_def. cbn [cast]. destruct (cls_beq c c0); [|reflexivity]. cbn [option_map]. now rewrite erase_obj_def. }
  assert (B : forall c (b : val -> prints), (cls_beq c CSelectStatement = cls_beq c CSelectStatement -> b (erase v) = b v) -> obind (cast c (erase v)) b = obind (cast c v) b).
  { intros c b Hb. rewrite C. unfold cast. destruct v; try reflexivity. destruct (cls_beq c c0); [|reflexivity]. cbn [option_map obind]. now apply Hb. }
  destruct (erased (S (vsize v)) (S (vsize v))) as (PE & PO & PW & PR & PS).
  assert (HM : forall f x, f <> F_stringLength -> settled x -> mem f (erase x) = option_map erase (mem f x)) by (intros; now apply settled_mem).
  assert (HP : forall x, present (erase x) = present x) by (now intros []). assert (HI : forall x, items_of (erase x) = option_map (map erase) (items_of x)) by (now intros []).
  assert (Hc : forall x, chars (erase x) = chars x) by (now intros []). assert (He : forall x, enum_of (erase x) = enum_of x) by (now intros []).
  pose proof (mem_size) as MS. pose proof settled_sub as SS. pose proof settled_item as SI.
  assert (ON : forall f b b', f <> F_stringLength -> (forall x, settled x -> (vsize x < S (vsize v))%nat -> b x = b' (erase x)) -> on f v b = on f (erase v) b').
  { intros f b b' F Hb. apply on_cong with (G := settled); first [assumption|(intros; apply Hb; [assumption|lia])]. }
  assert (IF : forall f b b', f <> F_stringLength -> (forall x, settled x -> (vsize x < S (vsize v))%nat -> b x = b' (erase x)) -> if_some f v b = if_some f (erase v) b').
  { intros f b b' F Hb. apply if_cong with (G := settled); first [assumption|(intros; apply Hb; [assumption|lia])]. }
  assert (EN : forall f (b b' : N -> prints), f <> F_stringLength -> (forall z, b z = b' z) -> obind (obind (mem f v) enum_of) b = obind (obind (mem f (erase v)) enum_of) b').
  { intros f b b' F Hb. apply enum_cong with (G := settled); assumption. }
  assert (EA : forall x l f f', settled x -> items_of x = Some l -> (vsize x < S (vsize v))%nat -> (forall y, settled y -> (vsize y < S (vsize v))%nat -> f y = f' (erase y)) -> each f l = each f' (map erase l)).
  { intros x l f f' Sx I L Hf. apply (each_cong erase settled) with (v := x); first [assumption|(intros; apply Hf; [assumption|lia])]. }
  assert (IT : forall x (b b' : list val -> prints), (forall l, items_of x = Some l -> b l = b' (map erase l)) -> obind (items_of x) b = obind (items_of (erase x)) b').
  { intros x b b' Hb. apply (items_cong erase); assumption. }
  assert (ST : forall x i, inprint_str x i = inprint_str (erase x) i) by (intros x i; unfold inprint_str; now rewrite Hc).
  Ltac pc := repeat first [reflexivity | match goal with |- cat _ = cat _ => apply cat_cong; repeat apply Forall2_cons; try apply Forall2_nil end
    | match goal with H : forall x i, inprint_str x i = _ |- inprint_str _ _ = _ => apply H end
    | match goal with H : forall f b b', _ -> _ -> on f _ b = _ |- on _ _ _ = _ => apply H; [discriminate|intros ? ? ?; cbn beta] end
    | match goal with H : forall f b b', _ -> _ -> if_some f _ b = _ |- if_some _ _ _ = _ => apply H; [discriminate|intros ? ? ?; cbn beta] end
    | match goal with H : forall f b b', _ -> _ -> obind (obind (mem f _) enum_of) b = _ |- obind (obind _ enum_of) _ = _ => apply H; [discriminate|intro] end
    | match goal with H : forall x b b', _ -> obind (items_of x) b = _ |- obind (items_of _) _ = _ => apply H; intros ? ? end
    | match goal with H : forall x, present (erase x) = _ |- obind (present ?y) _ = _ => rewrite H; destruct (present y) as [[|]|]; cbn [obind] end
    | match goal with H : forall x l f f', _ |- each _ _ = _ => eapply H; [eassumption|eassumption|assumption|intros ? ? ?; cbn beta] end
    | match goal with H : forall v i, _ -> _ -> _ -> print_expr _ v i = _ |- print_expr _ _ _ = _ => apply H; [assumption|lia|lia] end
    | match goal with H : forall v i, _ -> _ -> _ -> print_select _ v i = _ |- print_select _ _ _ = _ => apply H; [assumption|lia|lia] end
    | match goal with |- match ?x with _ => _ end = _ => destruct x end ].
  pose proof (vsize_erase v Sv) as VE.
  repeat match goal with |- match ?x with _ => _ end = _ => destruct x end; try reflexivity; (apply B; intros _; cbn beta; rewrite ?VE; symmetry; unfold print_insert, print_import, print_export, print_create, print_transaction, print_file_type; pc).
Qed.
