(** What the failed checks say about the tokens.  No code of /repo. *)
From Verif Require Import Script PropParse PropError Overflow PropUndef Left Complaint Cause.
From Verif Require Import Inv InvStep InvRun Abs Prec.
From Coq Require Import ZifyBool ZifyNat ZifyN.
Local Open Scope nat_scope.
Set Implicit Arguments.
Unset Strict Implicit.

Lemma derives_node X r us : derives X (Node r us) -> exists rhs, production r = Some (X, rhs) /\ derives_list rhs us.
Proof. intro D. inversion D; subst. eauto. Qed.
Lemma rules_of X t : derives X t -> (199 <= X)%N -> exists r us, t = Node r us /\ In r (map fst (filter (fun p => N.eqb (fst (snd p)) X) grammar)) /\ exists rhs, production r = Some (X, rhs) /\ derives_list rhs us.
Proof.
  intros D L. destruct D as [k|r lhs rhs us P D]; [exfalso; destruct (yytranslate_range (@code_range k)) as (z & _ & RZ & _ & EZ); rewrite sym_code in EZ; lia|]. exists r, us. split; [reflexivity|]. split; [|eauto].
  apply in_map_iff. exists (r, (lhs, rhs)). split; [reflexivity|]. apply filter_In. split; [exact (production_In P)|]. cbn [fst snd]. apply N.eqb_refl.
Qed.
Ltac one H := cbn [map fst filter] in H; repeat (destruct H as [<-|H]; [|]); try destruct H.
(** The children of a production with known right-hand side. *)
Ltac kids P D := vm_compute in P; injection P as <-; repeat match goal with
  | H : derives_list (_ :: _) _ |- _ => inversion H; clear H; subst
  | H : derives_list [] _ |- _ => inversion H; clear H; subst
  end.
Ltac kids2 P D := vm_compute in P; injection P as _ <-; repeat match goal with
  | H : derives_list (_ :: _) _ |- _ => inversion H; clear H; subst
  | H : derives_list [] _ |- _ => inversion H; clear H; subst
  end.
Ltac leaves := repeat match goal with
  | H : derives ?X ?t |- _ => is_var t; let k := fresh "k" in let E := fresh "E" in destruct (derives_terminal H) as (k & -> & E); [reflexivity|clear H]
  end.

Ltac got S v := match type of S with Some (?a, _) = Some (v, _) => assert (v = a) by congruence; subst v end.

Section Fault.
Variables (sql : bytes) (ts : list token).
Hypothesis T : tokens sql ts.
Lemma ok_tok k : In k ts -> tok_ok k.
Proof. destruct (tokens_end T) as (_ & TO & _). rewrite Forall_forall in TO. apply TO. Qed.
Lemma a_word k : In k ts -> sym_of k = S_IDENTIFIER -> exists s, word k s /\ token_val k = VStr 0 s.
Proof.
  intros I E. pose proof (ok_tok I) as O. unfold tok_ok in O. rewrite E in O. change (symty S_IDENTIFIER) with TStr in O. unfold token_val. destruct (t_val k) as [|s|z|f] eqn:V; try destruct O. exists s. split; [split; [|exact V]|reflexivity].
  apply (code_by_sym sql ts k _ S_IDENTIFIER T I E). vm_compute. reflexivity.
Qed.
Lemma a_string k : In k ts -> sym_of k = S_STRING -> exists s, quoted k s /\ token_val k = VStr 0 s.
Proof.
  intros I E. pose proof (ok_tok I) as O. unfold tok_ok in O. rewrite E in O. change (symty S_STRING) with TStr in O. unfold token_val. destruct (t_val k) as [|s|z|f] eqn:V; try destruct O. exists s. split; [split; [|exact V]|reflexivity].
  apply (code_by_sym sql ts k _ S_STRING T I E). vm_compute. reflexivity.
Qed.
Lemma a_key k c X : In k ts -> sym_of k = X -> forallb (fun z => (z =? c)%Z || negb (N.eqb (sym_of_code z) X)) (TableCheck.zrange 1000 0) = true -> t_code k = c.
Proof. intros I E A. exact (code_by_sym sql ts k c X T I E A). Qed.
Definition within (t : tree) : Prop := forall k, In k (yield t) -> In k ts.

(** *** The options of IMPORT and COPY *)
Lemma file_type_read t k v n : derives S_file_type t -> within t -> sem t k = Some (v, n) -> exists w s, yield t = [w] /\ word w s /\ file_type s = Some v.
Proof.
  intros D W S. destruct (rules_of D) as (r & us & -> & I & rhs & P & DL); [vm_compute; discriminate|]. vm_compute in I. destruct I as [<-|[]]. kids P DL. leaves. destruct (@a_word k0) as (s & WD & TV); [apply W; now left|assumption|].
  rewrite sem_node in S. cbn [sems sem] in S. rewrite TV in S. cbn [asem nth Nat.pred text] in S. destruct (file_type s) eqn:F; [|discriminate]. injection S as -> _. exists k0, s. auto.
Qed.
Definition option_field (w : bytes) : fld := if casecmp w (la "DELIMITER") then F_delimiter else if casecmp w (la "NULL") then F_null else F_quote.
Lemma option_read t k v n : derives S_csv_option t -> within t -> sem t k = Some (v, n) -> exists w o x s, yield t = [o; x] /\ names_option w o /\ quoted x s /\ csv_field (fget F_first v) = option_field w /\ fget F_second v = VStr 0 s.
Proof.
  intros D W S. destruct (rules_of D) as (r & us & -> & I & rhs & P & DL); [vm_compute; discriminate|]. vm_compute in I. destruct I as [<-|[<-|[]]]; kids P DL; leaves.
  - destruct (@a_word k1) as (s & WD & TV); [apply W; now left|assumption|]. destruct (@a_string k0) as (x & QX & TX); [apply W; right; now left|assumption|].
    rewrite sem_node in S. cbn [sems sem] in S. rewrite TV, TX in S. cbn [asem nth Nat.pred text] in S. destruct (casecmp s (la "DELIMITER")) eqn:C1; [|destruct (casecmp s (la "QUOTE")) eqn:C2; [|discriminate]]; injection S as <- _.
    + exists (la "DELIMITER"), k1, k0, x. split; [reflexivity|]. split; [right; split; [now left|eauto]|]. split; [exact QX|]. split; reflexivity.
    + exists (la "QUOTE"), k1, k0, x. split; [reflexivity|]. split; [right; split; [now right|eauto]|]. split; [exact QX|]. split; reflexivity.
  - destruct (@a_string k0) as (x & QX & TX); [apply W; right; now left|assumption|]. rewrite sem_node in S. cbn [sems sem] in S. rewrite TX in S. cbn [asem nth Nat.pred text] in S. injection S as <- _.
    exists (la "NULL"), k1, k0, x. split; [reflexivity|]. split; [left; split; [reflexivity|]|split; [exact QX|split; reflexivity]]. apply (@a_key k1 _ S_NULL); [apply W; now left|assumption|vm_compute; reflexivity].
Qed.
Definition csv (a b c : val) : val := obj CCsvOptions [(F_delimiter, a); (F_null, b); (F_quote, c)].
Record options_read (l : list token) (v : val) : Prop := {
  or_form : exists f e c, v = options f e c /\ (c = VNull \/ exists x y z, c = csv x y z);
  or_format : is_enum (fget F_format v) kImportAuto = false -> exists s, sets_format s l /\ file_type s = Some (fget F_format v);
  or_encoding : isnull (fget F_encoding v) = false -> has_token TOK_ENCODING l;
  or_some : isnull (fget F_csv_options v) = false -> exists w, sets_option w l;
  or_csv : forall w, isnull (fget F_csv_options v) = false -> In w [la "DELIMITER"; la "NULL"; la "QUOTE"] -> isnull (fget (option_field w) (fget F_csv_options v)) = false -> sets_option w l }.
Lemma sets_format_app s l m : sets_format s l -> sets_format s (l ++ m).
Proof. intros (l1 & f & k & l2 & -> & H). exists l1, f, k, (l2 ++ m). split; [now rewrite <- app_assoc|exact H]. Qed.
Lemma sets_option_app s l m : sets_option s l -> sets_option s (l ++ m).
Proof. intros (l1 & f & k & s1 & l2 & -> & H). exists l1, f, k, s1, (l2 ++ m). split; [now rewrite <- app_assoc|exact H]. Qed.
Lemma has_token_app c l m : has_token c l -> has_token c (l ++ m).
Proof. intros (k & I & H). exists k. split; [apply in_app_iff; auto|exact H]. Qed.
Lemma names_word w k : names_option w k -> In w [la "DELIMITER"; la "NULL"; la "QUOTE"].
Proof. intros [[-> _]|[[->| ->] _]]; cbn; auto. Qed.
Lemma options_with_format f e c x : with_ [(F_format, x)] (options f e c) = options x e c. Proof. reflexivity. Qed.
Lemma options_with_encoding f e c x : with_ [(F_encoding, x)] (options f e c) = options f x c. Proof. reflexivity. Qed.
Lemma options_with_csv f e c x : with_ [(F_csv_options, x)] (options f e c) = options f e x. Proof. reflexivity. Qed.
Lemma get_format f e c : fget F_format (options f e c) = f. Proof. reflexivity. Qed.
Lemma get_encoding f e c : fget F_encoding (options f e c) = e. Proof. reflexivity. Qed.
Lemma get_csv f e c : fget F_csv_options (options f e c) = c. Proof. reflexivity. Qed.
Lemma csv_set w x a b c : In w [la "DELIMITER"; la "NULL"; la "QUOTE"] -> exists a' b' c', with_ [(option_field w, x)] (csv a b c) = csv a' b' c' /\ fget (option_field w) (csv a' b' c') = x /\
  forall w', In w' [la "DELIMITER"; la "NULL"; la "QUOTE"] -> w' <> w -> fget (option_field w') (csv a' b' c') = fget (option_field w') (csv a b c).
Proof.
  intros [<-|[<-|[<-|[]]]].
  - exists x, b, c. split; [reflexivity|]. split; [reflexivity|]. intros w' [<-|[<-|[<-|[]]]] N; [congruence|reflexivity|reflexivity].
  - exists a, x, c. split; [reflexivity|]. split; [reflexivity|]. intros w' [<-|[<-|[<-|[]]]] N; [reflexivity|congruence|reflexivity].
  - exists a, b, x. split; [reflexivity|]. split; [reflexivity|]. intros w' [<-|[<-|[<-|[]]]] N; [reflexivity|reflexivity|congruence].
Qed.
Lemma csv_blank : obj CCsvOptions [] = csv VNull VNull VNull. Proof. reflexivity. Qed.
Lemma csv_one w x : In w [la "DELIMITER"; la "NULL"; la "QUOTE"] -> obj CCsvOptions [(option_field w, x)] = with_ [(option_field w, x)] (csv VNull VNull VNull).
Proof. intros [<-|[<-|[<-|[]]]]; reflexivity. Qed.
Lemma csv_null w : In w [la "DELIMITER"; la "NULL"; la "QUOTE"] -> fget (option_field w) (csv VNull VNull VNull) = VNull.
Proof. intros [<-|[<-|[<-|[]]]]; reflexivity. Qed.
Lemma type_not_auto s v : file_type s = Some v -> is_enum v kImportAuto = false.
Proof. unfold file_type. repeat (destruct (casecmp s _); try (intro E; injection E as <-; reflexivity)); cbn [orb]; discriminate || (intro E; injection E as <-; reflexivity). Qed.
Lemma within_app t l m : (forall k, In k (l ++ yield t ++ m) -> In k ts) -> within t.
Proof. intros W k I. apply W. rewrite !in_app_iff. auto. Qed.
Lemma csv_dec a b : {a = b} + {a <> b :> bytes}. Proof. apply list_eq_dec, Ascii.ascii_dec. Qed.
Lemma options_ok t : derives S_import_export_options t -> within t -> forall k v n, sem t k = Some (v, n) -> options_read (yield t) v.
Proof.
  intros D. remember S_import_export_options as X eqn:EX. revert X t D EX.
  apply (derives_mind (fun X t _ => X = S_import_export_options -> within t -> forall k v n, sem t k = Some (v, n) -> options_read (yield t) v)
    (fun Xs us _ => forall Y Ys, Xs = Y :: Ys -> exists u us', us = u :: us' /\ derives Y u /\ derives_list Ys us' /\ (Y = S_import_export_options -> within u -> forall k v n, sem u k = Some (v, n) -> options_read (yield u) v))).
  - intros k E. exfalso. destruct (yytranslate_range (@code_range k)) as (z & _ & RZ & _ & EZ). rewrite sym_code, E in EZ. unfold S_import_export_options in EZ. lia.
  - intros r lhs rhs us P DL IH -> W k v n S. assert (I : In r (map fst (filter (fun p => N.eqb (fst (snd p)) S_import_export_options) grammar))).
    { apply in_map_iff. exists (r, (S_import_export_options, rhs)). split; [reflexivity|]. apply filter_In. split; [exact (production_In P)|reflexivity]. }
    vm_compute in I. destruct I as [<-|[<-|[<-|[<-|[<-|[<-|[]]]]]]].
    + (* options, FORMAT type *)
      vm_compute in P. injection P as <-. destruct (IH _ _ eq_refl) as (u & us' & -> & DU & DL' & HU). clear IH DL. inversion DL' as [|? ? t1 ? D1 DL1]; clear DL'; subst. inversion DL1 as [|? ? t2 ? D2 DL2]; clear DL1; subst. inversion DL2 as [|? ? t3 ? D3 DL3]; clear DL2; subst. inversion DL3; clear DL3; subst. 
      destruct (derives_terminal D1) as (k1 & -> & E1); [reflexivity|]. destruct (derives_terminal D2) as (k2 & -> & E2); [reflexivity|].
      unfold within in W. cbn [yield flat_map] in W. rewrite app_nil_r in W.
      assert (WU : within u) by (intros q Q; apply W, in_app_iff; now left). assert (W3 : within t3) by (intros q Q; apply W; rewrite !in_app_iff; auto).
      rewrite sem_node in S. cbn [sems sem] in S. destruct (sem u k) as [[vu ku]|] eqn:SU; [|discriminate]. destruct (sem t3 ku) as [[v3 k3]|] eqn:S3; [|discriminate].
      pose proof (HU eq_refl WU _ _ _ SU) as [(f & e & c & -> & C) O1 O2 O3 O4]. destruct (file_type_read D3 W3 S3) as (w & s & Y3 & WD & FT). cbn [asem nth Nat.pred] in S. rewrite get_format, get_csv in *. destruct (_ && _); [|discriminate]. got S v. rewrite options_with_format.
      cbn [yield flat_map]. rewrite Y3. cbn [app]. constructor; rewrite ?get_format, ?get_encoding, ?get_csv in *.
      * eauto 6.
      * intros _. exists s. split; [|exact FT]. exists (yield u ++ [k1]), k2, w, []. split; [now rewrite <- app_assoc|]. split; [|exact WD]. apply (@a_key k2 _ S_FORMAT); [apply W; rewrite !in_app_iff; right; cbn; auto|exact E2|vm_compute; reflexivity].
      * intro H. apply has_token_app. auto.
      * intro H. destruct (O3 H) as (w0 & H0). exists w0. now apply sets_option_app.
      * intros w0 H0 H1 H2. apply sets_option_app. auto.
    + (* FORMAT type *)
      vm_compute in P. injection P as <-. inversion DL as [|? ? t2 ? D2 DL2]; clear DL; subst. inversion DL2 as [|? ? t3 ? D3 DL3]; clear DL2; subst. inversion DL3; clear DL3; subst. clear IH. destruct (derives_terminal D2) as (k2 & -> & E2); [reflexivity|].
      unfold within in W. cbn [yield flat_map] in W. rewrite app_nil_r in W. assert (W3 : within t3) by (intros q Q; apply W; right; exact Q).
      rewrite sem_node in S. cbn [sems sem] in S. destruct (sem t3 k) as [[v3 k3]|] eqn:S3; [|discriminate]. destruct (file_type_read D3 W3 S3) as (w & s & Y3 & WD & FT). cbn [asem nth Nat.pred] in S. got S v.
      cbn [yield flat_map]. rewrite Y3. cbn [app]. constructor; rewrite ?get_format, ?get_encoding, ?get_csv.
      * eauto 6.
      * intros _. exists s. split; [|exact FT]. exists [], k2, w, []. split; [reflexivity|]. split; [|exact WD]. apply (@a_key k2 _ S_FORMAT); [apply W; now left|exact E2|vm_compute; reflexivity].
      * discriminate.
      * discriminate.
      * discriminate.
    + (* options, ENCODING string *)
      vm_compute in P. injection P as <-. destruct (IH _ _ eq_refl) as (u & us' & -> & DU & DL' & HU). clear IH DL. inversion DL' as [|? ? t1 ? D1 DL1]; clear DL'; subst. inversion DL1 as [|? ? t2 ? D2 DL2]; clear DL1; subst. inversion DL2 as [|? ? t3 ? D3 DL3]; clear DL2; subst. inversion DL3; clear DL3; subst. 
      destruct (derives_terminal D1) as (k1 & -> & E1); [reflexivity|]. destruct (derives_terminal D2) as (k2 & -> & E2); [reflexivity|]. destruct (derives_terminal D3) as (k3 & -> & E3); [reflexivity|].
      unfold within in W. cbn [yield flat_map app] in W.
      assert (WU : within u) by (intros q Q; apply W, in_app_iff; now left).
      rewrite sem_node in S. cbn [sems sem] in S. destruct (sem u k) as [[vu ku]|] eqn:SU; [|discriminate]. 
      pose proof (HU eq_refl WU _ _ _ SU) as [(f & e & c & -> & C) O1 O2 O3 O4]. cbn [asem nth Nat.pred] in S. rewrite get_encoding in S. destruct (isnull e); [|discriminate]. got S v. rewrite options_with_encoding.
      cbn [yield flat_map app]. constructor; rewrite ?get_format, ?get_encoding, ?get_csv in *.
      * eauto 6.
      * intro H. destruct (O1 H) as (s & H1 & H2). exists s. split; [now apply sets_format_app|exact H2].
      * intros _. exists k2. split; [rewrite in_app_iff; right; cbn; auto|]. apply (@a_key k2 _ S_ENCODING); [apply W; rewrite !in_app_iff; right; cbn; auto|exact E2|vm_compute; reflexivity].
      * intro H. destruct (O3 H) as (w0 & H0). exists w0. now apply sets_option_app.
      * intros w0 H0 H1 H2. apply sets_option_app. auto.
    + (* ENCODING string *)
      vm_compute in P. injection P as <-. inversion DL as [|? ? t2 ? D2 DL2]; clear DL; subst. inversion DL2 as [|? ? t3 ? D3 DL3]; clear DL2; subst. inversion DL3; clear DL3; subst. clear IH. destruct (derives_terminal D2) as (k2 & -> & E2); [reflexivity|]. destruct (derives_terminal D3) as (k3 & -> & E3); [reflexivity|].
      unfold within in W. cbn [yield flat_map app] in W. rewrite sem_node in S. cbn [sems sem asem nth Nat.pred] in S. got S v. cbn [yield flat_map app]. constructor; rewrite ?get_format, ?get_encoding, ?get_csv.
      * eauto 6.
      * discriminate.
      * intros _. exists k2. split; [now left|]. apply (@a_key k2 _ S_ENCODING); [apply W; now left|exact E2|vm_compute; reflexivity].
      * discriminate.
      * discriminate.
    + (* options, csv option *)
      vm_compute in P. injection P as <-. destruct (IH _ _ eq_refl) as (u & us' & -> & DU & DL' & HU). clear IH DL. inversion DL' as [|? ? t1 ? D1 DL1]; clear DL'; subst. inversion DL1 as [|? ? t3 ? D3 DL3]; clear DL1; subst. inversion DL3; clear DL3; subst.
      destruct (derives_terminal D1) as (k1 & -> & E1); [reflexivity|].
      unfold within in W. cbn [yield flat_map] in W. rewrite app_nil_r in W.
      assert (WU : within u) by (intros q Q; apply W, in_app_iff; now left). assert (W3 : within t3) by (intros q Q; apply W; rewrite !in_app_iff; auto).
      rewrite sem_node in S. cbn [sems sem] in S. destruct (sem u k) as [[vu ku]|] eqn:SU; [|discriminate]. destruct (sem t3 ku) as [[v3 k3]|] eqn:S3; [|discriminate].
      pose proof (HU eq_refl WU _ _ _ SU) as [(f & e & c & -> & C) O1 O2 O3 O4]. destruct (option_read D3 W3 S3) as (w & o & x & s & Y3 & NO & QX & CF & SV). cbn [asem nth Nat.pred] in S. cbv zeta in S. rewrite get_format, get_csv, CF, SV in S. destruct (_ && _) eqn:CK; [|discriminate]. got S v. rewrite options_with_csv.
      apply andb_prop in CK as [_ CK]. pose proof (names_word NO) as NW.
      assert (SO : sets_option w (yield u ++ [k1; o; x])) by (exists (yield u ++ [k1]), o, x, s, []; split; [now rewrite <- app_assoc|auto]).
      cbn [yield flat_map]. rewrite Y3. cbn [app]. rewrite get_csv in *.
      assert (CC : exists a b d, (if isnull c then obj CCsvOptions [] else c) = csv a b d /\ (forall w', In w' [la "DELIMITER"; la "NULL"; la "QUOTE"] -> isnull (fget (option_field w') (csv a b d)) = false -> sets_option w' (yield u))).
      { destruct C as [->|(a & b & d & ->)]; cbn [isnull]; [exists VNull, VNull, VNull; split; [exact csv_blank|]; intros w' I' H'; rewrite (csv_null I') in H'; discriminate H'|].
        exists a, b, d. split; [reflexivity|]. intros w' I' H'. apply O4; [reflexivity|exact I'|exact H']. }
      destruct CC as (a & b & d & EC & OC). rewrite EC in *. destruct (csv_set (VStr 0 s) a b d NW) as (a' & b' & d' & EW & GW & GO). rewrite EW.
      constructor; rewrite ?get_format, ?get_encoding, ?get_csv in *.
      * exists f, e, (csv a' b' d'). split; [reflexivity|]. right. eauto.
      * intro H. destruct (O1 H) as (s0 & H1 & H2). exists s0. split; [now apply sets_format_app|exact H2].
      * intro H. apply has_token_app. auto.
      * intros _. eauto.
      * intros w' _ I' H'. destruct (csv_dec w' w) as [->|N]; [exact SO|]. rewrite (GO _ I' N) in H'. apply sets_option_app. auto.
    + (* csv option *)
      vm_compute in P. injection P as <-. inversion DL as [|? ? t3 ? D3 DL3]; clear DL; subst. inversion DL3; clear DL3; subst. clear IH.
      unfold within in W. cbn [yield flat_map] in W. rewrite app_nil_r in W. rewrite sem_node in S. cbn [sems sem] in S. destruct (sem t3 k) as [[v3 k3]|] eqn:S3; [|discriminate].
      destruct (option_read D3 W S3) as (w & o & x & s & Y3 & NO & QX & CF & SV). cbn [asem nth Nat.pred] in S. rewrite CF, SV in S. got S v. pose proof (names_word NO) as NW. rewrite (csv_one (VStr 0 s) NW).
      destruct (csv_set (VStr 0 s) VNull VNull VNull NW) as (a' & b' & d' & EW & GW & GO). rewrite EW.
      assert (SO : sets_option w [o; x]) by (exists [], o, x, s, []; split; [reflexivity|auto]).
      cbn [yield flat_map]. rewrite Y3. cbn [app]. constructor; rewrite ?get_format, ?get_encoding, ?get_csv.
      * exists kImportAuto, VNull, (csv a' b' d'). split; [reflexivity|]. right. eauto.
      * discriminate.
      * discriminate.
      * eauto.
      * intros w' _ I' H'. destruct (csv_dec w' w) as [->|N]; [exact SO|]. rewrite (GO _ I' N), (csv_null I') in H'. discriminate H'.
  - intros Y Ys E. discriminate E.
  - intros X0 Xs t us D IHD DL IH Y Ys E. injection E as -> ->. exists t, us. auto.
Qed.

(** *** The constraints of a column *)
Definition notless (X : N) : bool := if (X <? 199)%N then negb (N.eqb X S_NOT) else existsb (N.eqb X) [S_column_type; S_opt_time_precision; S_opt_decimal_specification; S_references_spec; S_table_name; S_opt_column_list; S_ident_commalist].
Lemma notless_grammar : forallb (fun p => negb (notless (fst (snd p))) || forallb notless (snd (snd p))) grammar = true.
Proof. vm_compute. reflexivity. Qed.
Lemma notless_yield X t : derives X t -> notless X = true -> forall k, In k (yield t) -> sym_of k <> S_NOT.
Proof.
  intro D. revert X t D. apply (derives_mind (fun X t _ => notless X = true -> forall k, In k (yield t) -> sym_of k <> S_NOT) (fun Xs us _ => forallb notless Xs = true -> forall k, In k (flat_map yield us) -> sym_of k <> S_NOT)).
  - intros k N q [<-|[]]. unfold notless in N. destruct (yytranslate_range (@code_range k)) as (z & _ & RZ & _ & EZ). rewrite sym_code in EZ. destruct (N.ltb_spec (sym_of k) 199); [|lia]. now apply negb_true_iff, N.eqb_neq in N.
  - intros r lhs rhs us P D IH N. pose proof (proj1 (forallb_forall _ _) notless_grammar _ (production_In P)) as C. cbn [fst snd] in C. rewrite N in C. exact (IH C).
  - intros _ k [].
  - intros X Xs t us D IH DL IHL N k I. cbn [forallb] in N. apply andb_prop in N as [N1 N2]. cbn [flat_map] in I. apply in_app_or in I as [I|I]; auto.
Qed.
(** [l] is empty or ends with something other than NOT. *)
Definition no_not_end (l : list token) : Prop := forall l0 n, l = l0 ++ [n] -> t_code n <> TOK_NOT.
Lemma no_not_all l : (forall k, In k l -> sym_of k <> S_NOT) -> no_not_end l.
Proof. intros H l0 n -> E. apply (H n); [apply in_app_iff; right; now left|]. unfold sym_of. rewrite E. vm_compute. reflexivity. Qed.
Lemma no_not_app l m : no_not_end l -> no_not_end m -> no_not_end (l ++ m).
Proof.
  intros H1 H2. destruct m as [|k m _] using rev_ind; [now rewrite app_nil_r|]. intros l0 n E. rewrite app_assoc in E. apply app_inj_tail in E as [_ <-]. exact (H2 m k eq_refl).
Qed.
Lemma plain_null_right l m : plain_null l -> plain_null (l ++ m).
Proof. intros (l1 & k & l2 & -> & H). exists l1, k, (l2 ++ m). split; [now rewrite <- app_assoc|exact H]. Qed.
Lemma plain_null_left l m : no_not_end l -> plain_null m -> plain_null (l ++ m).
Proof.
  intros N (l1 & k & l2 & -> & C & H). exists (l ++ l1), k, l2. split; [now rewrite <- app_assoc|]. split; [exact C|]. exact (no_not_app N H).
Qed.
Lemma has_token_left c l m : has_token c m -> has_token c (l ++ m).
Proof. intros (k & I & H). exists k. split; [apply in_app_iff; auto|exact H]. Qed.
Record constraints_read (l : list token) (v : val) : Prop := {
  cr_form : exists cs rs, v = constraints (vec cs) rs;
  cr_null : mem_enum CNull (elems (fget F_constraints v)) = true -> plain_null l;
  cr_not : mem_enum NotNull (elems (fget F_constraints v)) = true -> has_token TOK_NOT l;
  cr_key : mem_enum PrimaryKey (elems (fget F_constraints v)) = true -> has_token TOK_PRIMARY l;
  cr_end : no_not_end l }.
Lemma get_constraints cs rs : fget F_constraints (constraints cs rs) = cs. Proof. reflexivity. Qed.
Lemma constraint_read t k v n : derives S_column_constraint t -> within t -> sem t k = Some (v, n) -> (exists j, v = VEnum EConstraintType j) /\ no_not_end (yield t) /\ (is_enum CNull v = true -> plain_null (yield t)) /\
  (is_enum NotNull v = true -> has_token TOK_NOT (yield t)) /\ (is_enum PrimaryKey v = true -> has_token TOK_PRIMARY (yield t)).
Proof.
  intros D W S. destruct (rules_of D) as (r & us & -> & I & rhs & P & DL); [vm_compute; discriminate|]. vm_compute in I. destruct I as [<-|[<-|[<-|[<-|[]]]]]; kids P DL; leaves; rewrite sem_node in S; cbn [sems sem asem] in S; injection S as <- _; (split; [eexists; reflexivity|]); cbn [yield flat_map app].
  - split; [intros l0 n0 EQ0; change [k1; k0] with ([k1] ++ [k0]) in EQ0; apply app_inj_tail in EQ0 as [_ <-]; rewrite (@a_key k0 TOK_KEY S_KEY); [discriminate|apply W; right; now left|assumption|vm_compute; reflexivity]|]. split; [discriminate|]. split; [discriminate|]. intros _. exists k1. split; [now left|]. apply (@a_key k1 _ S_PRIMARY); [apply W; now left|assumption|vm_compute; reflexivity].
  - split; [intros l0 n0 EQ0; change [k0] with ([] ++ [k0]) in EQ0; apply app_inj_tail in EQ0 as [_ <-]; rewrite (@a_key k0 TOK_UNIQUE S_UNIQUE); [discriminate|apply W; now left|assumption|vm_compute; reflexivity]|]. split; [discriminate|]. split; discriminate.
  - assert (KN : t_code k0 = TOK_NULL) by (apply (@a_key k0 _ S_NULL); [apply W; now left|assumption|vm_compute; reflexivity]).
    split; [intros l0 n0 EQ0; change [k0] with ([] ++ [k0]) in EQ0; apply app_inj_tail in EQ0 as [_ <-]; rewrite KN; discriminate|]. split; [|split; discriminate]. intros _. exists [], k0, []. split; [reflexivity|]. split; [exact KN|]. intros l0 n0 EQ0. destruct l0; discriminate EQ0.
  - assert (KN : t_code k0 = TOK_NULL) by (apply (@a_key k0 _ S_NULL); [apply W; right; now left|assumption|vm_compute; reflexivity]).
    split; [intros l0 n0 EQ0; change [k1; k0] with ([k1] ++ [k0]) in EQ0; apply app_inj_tail in EQ0 as [_ <-]; rewrite KN; discriminate|]. split; [discriminate|]. split; [|discriminate]. intros _. exists k1. split; [now left|]. apply (@a_key k1 _ S_NOT); [apply W; now left|assumption|vm_compute; reflexivity].
Qed.
Lemma add_enum_vec cs x : exists cs', add_enum (vec cs) x = vec cs'.
Proof. unfold add_enum. destruct (mem_enum _ _); [eauto|]. unfold snoc. eauto. Qed.
Lemma add_enum_mem cs x y : mem_enum y (elems (add_enum (vec cs) x)) = true -> mem_enum y cs = true \/ is_enum y x = true.
Proof.
  unfold add_enum. cbn [elems vec]. destruct (mem_enum x cs); [auto|]. unfold snoc. cbn [elems vec]. unfold mem_enum. rewrite existsb_app. cbn [existsb]. rewrite orb_false_r. intro H. apply orb_prop in H. exact H.
Qed.
Lemma constraints_ok t : derives S_column_constraints t -> within t -> forall k v n, sem t k = Some (v, n) -> constraints_read (yield t) v.
Proof.
  intros D. remember S_column_constraints as X eqn:EX. revert X t D EX.
  apply (derives_mind (fun X t _ => X = S_column_constraints -> within t -> forall k v n, sem t k = Some (v, n) -> constraints_read (yield t) v)
    (fun Xs us _ => forall Y Ys, Xs = Y :: Ys -> exists u us', us = u :: us' /\ derives Y u /\ derives_list Ys us' /\ (Y = S_column_constraints -> within u -> forall k v n, sem u k = Some (v, n) -> constraints_read (yield u) v))).
  - intros k E. exfalso. destruct (yytranslate_range (@code_range k)) as (z & _ & RZ & _ & EZ). rewrite sym_code, E in EZ. unfold S_column_constraints in EZ. lia.
  - intros r lhs rhs us P DL IH -> W k v n S. assert (I : In r (map fst (filter (fun p => N.eqb (fst (snd p)) S_column_constraints) grammar))).
    { apply in_map_iff. exists (r, (S_column_constraints, rhs)). split; [reflexivity|]. apply filter_In. split; [exact (production_In P)|reflexivity]. }
    vm_compute in I. destruct I as [<-|[<-|[<-|[<-|[]]]]]; vm_compute in P; injection P as <-; destruct (IH _ _ eq_refl) as (u & us' & -> & DU & DL' & HU); clear IH DL.
    + inversion DL'; subst. unfold within in W. cbn [yield flat_map] in *. rewrite app_nil_r in *. rewrite sem_node in S. cbn [sems] in S. destruct (sem u k) as [[vu ku]|] eqn:SU; [|discriminate]. cbn [asem nth Nat.pred] in S. got S v.
      destruct (constraint_read DU W SU) as (_ & C1 & C2 & C3 & C4). constructor; rewrite ?get_constraints; cbn [elems vec mem_enum existsb]; unfold mem_enum; cbn [existsb]; rewrite ?orb_false_r; auto. eauto.
    + inversion DL' as [|? ? t1 ? D1 DL1]; subst. inversion DL1; subst. unfold within in W. cbn [yield flat_map] in *. rewrite app_nil_r in *. assert (WU : within u) by (intros q Q; apply W, in_app_iff; now left). assert (W1 : within t1) by (intros q Q; apply W, in_app_iff; now right).
      rewrite sem_node in S. cbn [sems] in S. destruct (sem u k) as [[vu ku]|] eqn:SU; [|discriminate]. destruct (sem t1 ku) as [[v1 k1]|] eqn:S1; [|discriminate]. cbn [asem nth Nat.pred] in S. got S v.
      pose proof (HU eq_refl WU _ _ _ SU) as [(cs & rs & ->) R1 R2 R3 R4]. destruct (constraint_read D1 W1 S1) as (_ & C1 & C2 & C3 & C4). rewrite get_constraints in *. cbn [elems vec] in R1, R2, R3. constructor; rewrite ?get_constraints.
      * destruct (add_enum_vec cs v1) as (cs' & ->). eauto.
      * intro H. apply add_enum_mem in H as [H|H]; [apply plain_null_right; auto|apply plain_null_left; auto].
      * intro H. apply add_enum_mem in H as [H|H]; [apply has_token_app; auto|apply has_token_left; auto].
      * intro H. apply add_enum_mem in H as [H|H]; [apply has_token_app; auto|apply has_token_left; auto].
      * now apply no_not_app.
    + inversion DL'; subst. unfold within in W. cbn [yield flat_map] in *. rewrite app_nil_r in *. rewrite sem_node in S. cbn [sems] in S. destruct (sem u k) as [[vu ku]|] eqn:SU; [|discriminate]. cbn [asem nth Nat.pred] in S. got S v.
      constructor; rewrite ?get_constraints; [eauto|discriminate..|]. apply no_not_all. apply (notless_yield DU). vm_compute. reflexivity.
    + inversion DL' as [|? ? t1 ? D1 DL1]; subst. inversion DL1; subst. unfold within in W. cbn [yield flat_map] in *. rewrite app_nil_r in *. assert (WU : within u) by (intros q Q; apply W, in_app_iff; now left).
      rewrite sem_node in S. cbn [sems] in S. destruct (sem u k) as [[vu ku]|] eqn:SU; [|discriminate]. destruct (sem t1 ku) as [[v1 k1]|] eqn:S1; [|discriminate]. cbn [asem nth Nat.pred] in S. got S v.
      pose proof (HU eq_refl WU _ _ _ SU) as [(cs & rs & ->) R1 R2 R3 R4]. rewrite get_constraints in *. cbn [elems vec] in R1, R2, R3. constructor; rewrite ?get_constraints.
      * destruct (add_enum_vec cs ForeignKey) as (cs' & ->). eauto.
      * intro H. apply add_enum_mem in H as [H|H]; [apply plain_null_right; auto|discriminate H].
      * intro H. apply add_enum_mem in H as [H|H]; [apply has_token_app; auto|discriminate H].
      * intro H. apply add_enum_mem in H as [H|H]; [apply has_token_app; auto|discriminate H].
      * apply no_not_app; [exact R4|]. apply no_not_all. apply (notless_yield D1). vm_compute. reflexivity.
  - intros Y Ys E. discriminate E.
  - intros X0 Xs t us D IHD DL IH Y Ys E. injection E as -> ->. exists t, us. auto.
Qed.
Lemma opt_constraints_ok t : derives S_opt_column_constraints t -> within t -> forall k v n, sem t k = Some (v, n) -> constraints_read (yield t) v.
Proof.
  intros D W k v n S. destruct (rules_of D) as (r & us & -> & I & rhs & P & DL); [vm_compute; discriminate|]. vm_compute in I. destruct I as [<-|[<-|[]]]; vm_compute in P; injection P as <-.
  - inversion DL as [|? ? u ? DU DL']; subst. inversion DL'; subst. unfold within in W. cbn [yield flat_map] in *. rewrite app_nil_r in *. rewrite sem_node in S. cbn [sems] in S. destruct (sem u k) as [[vu ku]|] eqn:SU; [|discriminate]. cbn [asem nth Nat.pred] in S. got S v. eapply constraints_ok; eassumption.
  - inversion DL; subst. rewrite sem_node in S. cbn [sems asem] in S. got S v. constructor; rewrite ?get_constraints; [eauto|discriminate..|]. intros [|] ? E; discriminate E.
Qed.

(** *** Every failed check *)
Theorem fault_of X t m : derives X t -> within t -> objectionable t m -> faulty (yield t) m.
Proof.
  intros D W (r & us & k & vs & n & -> & SE & AN & ->). pose proof (asem_checks AN) as I. destruct (derives_node D) as (rhs & P & DL). unfold checked in I. cbn [In] in I.
  repeat (destruct I as [<-|I]); [..|destruct I].
  - (* column_def *) vm_compute in P. injection P as _ <-. inversion DL as [|? ? t1 ? D1 DL1]; subst. inversion DL1 as [|? ? t2 ? D2 DL2]; subst. inversion DL2 as [|? ? t3 ? D3 DL3]; subst. inversion DL3; subst. clear DL DL1 DL2 DL3. destruct (derives_terminal D1) as (k1 & -> & E1); [reflexivity|].
    unfold within in W. cbn [yield flat_map app] in *. rewrite app_nil_r in *. destruct (@a_word k1) as (s & WD & TV); [apply W; now left|exact E1|].
    assert (W3 : within t3) by (intros q Q; apply W; right; apply in_app_iff; now right). cbn [sems sem] in SE. rewrite TV in SE. destruct (sem t2 k) as [[v2 k2]|] eqn:S2; [|discriminate]. destruct (sem t3 k2) as [[v3 k3]|] eqn:S3; [|discriminate]. assert (vs = [VStr 0 s; v2; v3]) by congruence. subst vs.
    pose proof (opt_constraints_ok D3 W3 S3) as [_ R1 R2 R3 R4]. cbn [asem nth Nat.pred] in AN. cbv zeta in AN. destruct (_ && _) eqn:CK in AN; [|discriminate]. apply andb_prop in CK as [C1 C2]. apply orb_prop in C1.
    cbn [complaint nth Nat.pred text]. apply f_column; [exact WD| |destruct C1 as [C1|C1]; [left|right]; apply has_token_left; auto]. apply plain_null_left; [|auto]. apply no_not_all. apply (notless_yield D2). vm_compute. reflexivity.
  - (* file type *) kids2 P DL. leaves. destruct (@a_word k0) as (s & WD & TV); [apply W; now left|assumption|]. cbn [sems sem] in SE. rewrite TV in SE. assert (vs = [VStr 0 s]) by congruence. subst vs. cbn [asem nth Nat.pred text] in AN. cbn [complaint yield flat_map app]. apply f_file with (s := s); [exact WD|]. unfold file_type in AN.
    intros w Iw. destruct (casecmp s (la "csv")) eqn:C1; [discriminate|]. destruct (casecmp s (la "tbl")) eqn:C2; [discriminate|]. destruct (casecmp s (la "binary")) eqn:C3; [discriminate|]. destruct (casecmp s (la "bin")) eqn:C4; [discriminate|]. cbn [In] in Iw. repeat (destruct Iw as [<-|Iw]; [assumption|]). destruct Iw.
  - (* FORMAT *) vm_compute in P. injection P as _ <-. inversion DL as [|? ? u ? DU DL0]; subst. inversion DL0 as [|? ? t1 ? D1 DL1]; subst. inversion DL1 as [|? ? t2 ? D2 DL2]; subst. inversion DL2 as [|? ? t3 ? D3 DL3]; subst. inversion DL3; subst. clear DL DL0 DL1 DL2 DL3.
    destruct (derives_terminal D1) as (k1 & -> & E1); [reflexivity|]. destruct (derives_terminal D2) as (k2 & -> & E2); [reflexivity|]. unfold within in W. cbn [yield flat_map] in *. rewrite app_nil_r in *.
    assert (WU : within u) by (intros q Q; apply W, in_app_iff; now left). assert (W3 : within t3) by (intros q Q; apply W; rewrite !in_app_iff; auto).
    cbn [sems sem] in SE. destruct (sem u k) as [[vu ku]|] eqn:SU; [|discriminate]. destruct (sem t3 ku) as [[v3 k3]|] eqn:S3; [|discriminate]. assert (vs = [vu; token_val k1; token_val k2; v3]) by congruence. subst vs.
    pose proof (options_ok DU WU SU) as [_ O1 O2 O3 O4]. destruct (file_type_read D3 W3 S3) as (w & s & Y3 & WD & FT). cbn [asem nth Nat.pred] in AN. cbn [complaint nth Nat.pred]. rewrite Y3. cbn [app].
    assert (K1 : t_code k1 = bz ","%char) by (apply (@a_key k1 _ S_comma); [apply W; rewrite !in_app_iff; right; cbn; auto|exact E1|vm_compute; reflexivity]).
    assert (K2 : t_code k2 = TOK_FORMAT) by (apply (@a_key k2 _ S_FORMAT); [apply W; rewrite !in_app_iff; right; cbn; auto|exact E2|vm_compute; reflexivity]).
    destruct (is_enum (fget F_format vu) kImportAuto) eqn:FA.
    + cbn [andb] in AN. destruct (isnull (fget F_csv_options vu)) eqn:NC; [discriminate|]. cbn [orb] in AN. destruct (is_enum v3 kImportCSV) eqn:FC; [discriminate|]. destruct (O3 eq_refl) as (w0 & SO).
      eapply f_format_csv; [exact SO|exact K1|exact K2|exact WD|]. destruct (casecmp s (la "csv")) eqn:CS; [|reflexivity]. exfalso. unfold file_type in FT. rewrite CS in FT. injection FT as <-. discriminate FC.
    + destruct (O1 eq_refl) as (s0 & SF & _). eapply f_format; eassumption.
  - (* ENCODING *) vm_compute in P. injection P as _ <-. inversion DL as [|? ? u ? DU DL0]; subst. inversion DL0 as [|? ? t1 ? D1 DL1]; subst. inversion DL1 as [|? ? t2 ? D2 DL2]; subst. inversion DL2 as [|? ? t3 ? D3 DL3]; subst. inversion DL3; subst. clear DL DL0 DL1 DL2 DL3.
    destruct (derives_terminal D1) as (k1 & -> & E1); [reflexivity|]. destruct (derives_terminal D2) as (k2 & -> & E2); [reflexivity|]. destruct (derives_terminal D3) as (k3 & -> & E3); [reflexivity|]. unfold within in W. cbn [yield flat_map app] in *.
    assert (WU : within u) by (intros q Q; apply W, in_app_iff; now left).
    cbn [sems sem] in SE. destruct (sem u k) as [[vu ku]|] eqn:SU; [|discriminate]. assert (vs = [vu; token_val k1; token_val k2; token_val k3]) by congruence. subst vs.
    pose proof (options_ok DU WU SU) as [_ O1 O2 O3 O4]. cbn [asem nth Nat.pred] in AN. cbn [complaint]. destruct (isnull (fget F_encoding vu)) eqn:NE; [discriminate|].
    apply f_encoding; [auto|..].
    + apply (@a_key k1 _ S_comma); [apply W; rewrite !in_app_iff; right; cbn; auto|exact E1|vm_compute; reflexivity].
    + apply (@a_key k2 _ S_ENCODING); [apply W; rewrite !in_app_iff; right; cbn; auto|exact E2|vm_compute; reflexivity].
    + apply (@a_key k3 _ S_STRING); [apply W; rewrite !in_app_iff; right; cbn; auto|exact E3|vm_compute; reflexivity].
  - (* CSV option *) vm_compute in P. injection P as _ <-. inversion DL as [|? ? u ? DU DL0]; subst. inversion DL0 as [|? ? t1 ? D1 DL1]; subst. inversion DL1 as [|? ? t3 ? D3 DL3]; subst. inversion DL3; subst. clear DL DL0 DL1 DL3.
    destruct (derives_terminal D1) as (k1 & -> & E1); [reflexivity|]. unfold within in W. cbn [yield flat_map] in *. rewrite app_nil_r in *.
    assert (WU : within u) by (intros q Q; apply W, in_app_iff; now left). assert (W3 : within t3) by (intros q Q; apply W; rewrite !in_app_iff; auto).
    cbn [sems sem] in SE. destruct (sem u k) as [[vu ku]|] eqn:SU; [|discriminate]. destruct (sem t3 ku) as [[v3 k3]|] eqn:S3; [|discriminate]. assert (vs = [vu; token_val k1; v3]) by congruence. subst vs.
    pose proof (options_ok DU WU SU) as [_ O1 O2 O3 O4]. destruct (option_read D3 W3 S3) as (w & o & x & s & Y3 & NO & QX & CF & SV). cbn [asem nth Nat.pred] in AN. cbv zeta in AN. cbn [complaint nth Nat.pred]. rewrite Y3. cbn [app]. rewrite CF in AN.
    assert (K1 : t_code k1 = bz ","%char) by (apply (@a_key k1 _ S_comma); [apply W; rewrite !in_app_iff; right; cbn; auto|exact E1|vm_compute; reflexivity]). pose proof (names_word NO) as NW.
    destruct (is_enum (fget F_format vu) kImportAuto || is_enum (fget F_format vu) kImportCSV) eqn:FA.
    + cbn [andb] in AN. destruct (isnull (fget F_csv_options vu)) eqn:NC.
      * exfalso. rewrite csv_blank, (csv_null NW) in AN. discriminate AN.
      * destruct (isnull (fget (option_field w) (fget F_csv_options vu))) eqn:NF; [discriminate|]. eapply f_option; [exact (O4 w eq_refl NW NF)|exact K1|exact NO|exact QX].
    + apply orb_false_iff in FA as [F1 F2]. destruct (O1 F1) as (s0 & SF & FT). eapply f_option_csv; [exact SF| |exact K1|exact NO|exact QX]. destruct (casecmp s0 (la "csv")) eqn:CS; [|reflexivity]. exfalso. unfold file_type in FT. rewrite CS in FT. injection FT as FT. rewrite <- FT in F2. discriminate F2.
  - (* unknown option *) kids2 P DL. leaves. destruct (@a_word k1) as (s & WD & TV); [apply W; now left|assumption|]. destruct (@a_string k0) as (x & QX & TX); [apply W; right; now left|assumption|]. cbn [sems sem] in SE. rewrite TV, TX in SE. assert (vs = [VStr 0 s; VStr 0 x]) by congruence. subst vs.
    cbn [asem nth Nat.pred text] in AN. cbn [complaint yield flat_map app]. destruct (casecmp s (la "DELIMITER")) eqn:C1; [discriminate|]. destruct (casecmp s (la "QUOTE")) eqn:C2; [discriminate|]. eapply f_csv; eassumption.
  - (* CREATE TABLE .. FROM *) vm_compute in P. injection P as _ <-. inversion DL as [|? ? u1 ? D1 DL1]; subst. inversion DL1 as [|? ? u2 ? D2 DL2]; subst. inversion DL2 as [|? ? u3 ? D3 DL3]; subst. inversion DL3 as [|? ? u4 ? D4 DL4]; subst. inversion DL4 as [|? ? u5 ? D5 DL5]; subst. inversion DL5 as [|? ? u6 ? D6 DL6]; subst. inversion DL6 as [|? ? u7 ? D7 DL7]; subst. inversion DL7 as [|? ? u8 ? D8 DL8]; subst. inversion DL8; subst. clear DL DL1 DL2 DL3 DL4 DL5 DL6 DL7 DL8.
    destruct (derives_terminal D5) as (k5 & -> & E5); [reflexivity|]. destruct (derives_terminal D6) as (k6 & -> & E6); [reflexivity|]. destruct (derives_terminal D7) as (k7 & -> & E7); [reflexivity|].
    destruct (rules_of D8) as (r8 & us8 & -> & I8 & rhs8 & P8 & DL8); [vm_compute; discriminate|]. vm_compute in I8. destruct I8 as [<-|[]]. vm_compute in P8. injection P8 as <-. inversion DL8 as [|? ? u9 ? D9 DL9]; subst. inversion DL9; subst. clear DL8 DL9. destruct (derives_terminal D9) as (k9 & -> & E9); [reflexivity|].
    replace (yield (Node 55 [u1; u2; u3; u4; Leaf k5; Leaf k6; Leaf k7; Node 38 [Leaf k9]])) with ((yield u1 ++ yield u2 ++ yield u3 ++ yield u4) ++ [k5; k6; k7; k9]) in * by (cbn [yield flat_map app]; now rewrite <- !app_assoc).
    assert (W' : forall q, In q ((yield u1 ++ yield u2 ++ yield u3 ++ yield u4) ++ [k5; k6; k7; k9]) -> In q ts) by (intros q Q; apply W; cbn [yield flat_map app]; rewrite !in_app_iff in *; cbn [In] in *; tauto). clear W.
    destruct (@a_word k6) as (s & WD & TV); [apply W', in_app_iff; right; cbn; auto|exact E6|].
    cbn [complaint]. apply f_tbl with (s := s); [|exact WD|..].
    + apply (@a_key k5 _ S_FROM); [apply W', in_app_iff; right; cbn; auto|exact E5|vm_compute; reflexivity].
    + apply (@a_key k7 _ S_FILE); [apply W', in_app_iff; right; cbn; auto|exact E7|vm_compute; reflexivity].
    + apply (@a_key k9 _ S_STRING); [apply W', in_app_iff; right; cbn; auto|exact E9|vm_compute; reflexivity].
    + assert (N6 : nth_error vs 5 = Some (VStr 0 s)).
      { rewrite <- TV. destruct (@sems_nth [u1; u2; u3; u4; Leaf k5; Leaf k6; Leaf k7; Node 38 [Leaf k9]] k vs n 5 (Leaf k6) SE eq_refl) as (j1 & j2 & v & NV & SV). rewrite NV. cbn [sem] in SV. congruence. }
      cbn [asem Nat.pred] in AN. rewrite (nth_error_nth _ _ _ N6) in AN. cbn [text] in AN. destruct (casecmp s (la "tbl")); [discriminate|reflexivity].
  - (* NULLS *) kids2 P DL. leaves. destruct (@a_word k1) as (s & WD & TV); [apply W; now left|assumption|]. destruct (@a_word k0) as (x & QX & TX); [apply W; right; now left|assumption|]. cbn [sems sem] in SE. rewrite TV, TX in SE. assert (vs = [VStr 0 s; VStr 0 x]) by congruence. subst vs.
    cbn [asem nth Nat.pred text] in AN. cbn [complaint yield flat_map app]. eapply f_nulls; [exact WD|exact QX|]. unfold null_ordering in AN. intros [C1 C2]. rewrite C1 in AN. destruct (casecmp x (la "first")); [discriminate|]. destruct (casecmp x (la "last")); [discriminate|]. destruct C2; discriminate.
  - (* parameter *) vm_compute in P. injection P as _ <-. inversion DL as [|? ? u ? DU DL0]; subst. inversion DL0; subst. clear DL DL0. unfold within in W. cbn [yield flat_map] in *. rewrite app_nil_r in *. cbn [sems] in SE. destruct (sem u k) as [[vu ku]|] eqn:SU; [|discriminate]. assert (vs = [vu]) by congruence. subst vs. cbn [complaint].
    cbn [asem nth Nat.pred] in AN. destruct (is_enum (fget F_type vu) kExprParameter) eqn:EP; [|discriminate].
    destruct (rules_of DU) as (r1 & us1 & -> & I1 & rhs1 & P1 & DL1); [vm_compute; discriminate|]. vm_compute in I1.
    assert (PX : r1 = 286%N).
    { clear W D DU AN. repeat (destruct I1 as [<-|I1]; [|]); try destruct I1; try reflexivity; exfalso; vm_compute in P1; injection P1 as <-; inversion DL1 as [|? ? u1 ? D1 DL2]; subst; inversion DL2; subst; clear DL1 DL2; rewrite sem_node in SU; cbn [sems] in SU; destruct (sem u1 k) as [[v1 k1]|] eqn:S1; try discriminate SU; cbn [asem nth Nat.pred] in SU; (assert (vu = v1) by congruence); subst vu; clear SU.
      all: destruct (rules_of D1) as (r2 & us2 & -> & I2 & rhs2 & P2 & DL2); [vm_compute; discriminate|]; vm_compute in I2; rewrite sem_node in S1; destruct (sems us2 k) as [[vs2 k2]|] eqn:S2; [|discriminate S1].
      all: repeat (destruct I2 as [<-|I2]; [|]); try destruct I2; cbn [asem] in S1.
      all: try (match type of S1 with Some (?v, _) = Some (?x, _) => assert (x = v) by congruence; subst x; discriminate EP end).
      all: try (match type of S1 with match (if ?c then _ else _) with _ => _ end = _ => destruct c; try discriminate S1; match type of S1 with Some (?v, _) = Some (?x, _) => assert (x = v) by congruence; subst x; discriminate EP end end).
      all: try (match type of S1 with match (match ?c with _ => _ end) with _ => _ end = _ => destruct c; try discriminate S1 end).
      all: try (match type of S1 with match (match ?c with _ => _ end) with _ => _ end = _ => destruct c; try discriminate S1 end).
      all: try (match type of S1 with Some (?v, _) = Some (?x, _) => assert (x = v) by congruence; subst x; discriminate EP end).
      vm_compute in P2. injection P2 as <-. inversion DL2 as [|? ? u3 ? D3 DL3]; subst. inversion DL3; subst. cbn [sems] in S2. destruct (sem u3 k) as [[v3 k3]|] eqn:S3; [|discriminate S2]. assert (vs2 = [v3]) by congruence. subst vs2. cbn [nth Nat.pred] in S1.
      assert (v1 = v3) by congruence. subst v1. destruct (rules_of D3) as (r4 & us4 & -> & I4 & rhs4 & P4 & DL4); [vm_compute; discriminate|]. vm_compute in I4. destruct I4 as [<-|[]]. rewrite sem_node in S3. destruct (sems us4 k) as [[vs4 k4]|]; [|discriminate S3]. cbn [asem] in S3.
      match type of S3 with Some (?v, _) = Some (?x, _) => assert (x = v) by congruence; subst x; discriminate EP end. }
    subst r1. vm_compute in P1. injection P1 as <-. inversion DL1 as [|? ? u1 ? D1 DL2]; subst. inversion DL2; subst. clear DL1 DL2. destruct (rules_of D1) as (r2 & us2 & -> & I2 & rhs2 & P2 & DL2); [vm_compute; discriminate|]. vm_compute in I2. destruct I2 as [<-|[]]. kids P2 DL2. leaves. cbn [yield flat_map app] in *. apply f_param. apply (@a_key k0 _ S_qmark); [apply W; now left|assumption|vm_compute; reflexivity].
  - (* DATE *) kids2 P DL. leaves. destruct (@a_string k0) as (x & QX & TX); [apply W; right; now left|assumption|]. cbn [sems sem] in SE. rewrite TX in SE. assert (vs = [token_val k1; VStr 0 x]) by congruence. subst vs. cbn [asem nth Nat.pred text] in AN. cbn [complaint yield flat_map app]. destruct (scan_date x) eqn:SD; [discriminate|].
    eapply f_date; [|exact QX|exact SD]. apply (@a_key k1 _ S_DATE); [apply W; now left|assumption|vm_compute; reflexivity].
  - (* INTERVAL, unit outside *) vm_compute in P. injection P as _ <-. inversion DL as [|? ? u1 ? D1 DL1]; subst. inversion DL1 as [|? ? u2 ? D2 DL2]; subst. inversion DL2 as [|? ? u3 ? D3 DL3]; subst. inversion DL3; subst. clear DL DL1 DL2 DL3. destruct (derives_terminal D1) as (k1 & -> & E1); [reflexivity|]. destruct (derives_terminal D2) as (k2 & -> & E2); [reflexivity|].
    destruct (rules_of D3) as (r3 & us3 & -> & I3 & rhs3 & P3 & DL3); [vm_compute; discriminate|]. assert (Y3 : exists k3, us3 = [Leaf k3]).
    { clear -I3 P3 DL3. vm_compute in I3. repeat (destruct I3 as [<-|I3]; [vm_compute in P3; injection P3 as <-; inversion DL3 as [|? ? v ? DV DL4]; subst; inversion DL4; subst; destruct (derives_terminal DV) as (q & -> & _); [reflexivity|eauto]|]). destruct I3. }
    destruct Y3 as (k3 & ->). unfold within in W. cbn [yield flat_map app] in *. destruct (@a_string k2) as (x & QX & TX); [apply W; right; now left|exact E2|].
    assert (N2 : nth_error vs 1 = Some (VStr 0 x)).
    { rewrite <- TX. destruct (@sems_nth [Leaf k1; Leaf k2; Node r3 [Leaf k3]] k vs n 1 (Leaf k2) SE eq_refl) as (j1 & j2 & v & NV & SV). rewrite NV. cbn [sem] in SV. congruence. }
    apply nth_error_nth with (d := VUninit) in N2. cbn [complaint].
    cbn [asem Nat.pred] in AN. rewrite N2 in AN. cbn [text] in AN. eapply f_interval; [|exact QX|intros q u E; rewrite E in AN; discriminate AN]. apply (@a_key k1 _ S_INTERVAL); [apply W; now left|exact E1|vm_compute; reflexivity].
  - (* INTERVAL *) kids2 P DL. leaves. destruct (@a_string k0) as (x & QX & TX); [apply W; right; now left|assumption|]. cbn [sems sem] in SE. rewrite TX in SE. assert (vs = [token_val k1; VStr 0 x]) by congruence. subst vs. cbn [asem nth Nat.pred text] in AN. cbn [complaint nth Nat.pred text yield flat_map app].
    assert (K1 : t_code k1 = TOK_INTERVAL) by (apply (@a_key k1 _ S_INTERVAL); [apply W; now left|assumption|vm_compute; reflexivity]).
    destruct (scan_interval2 x) as [|q u|] eqn:SI; try (eapply f_interval2; [exact K1|exact QX|intros; congruence]). destruct (unit_of u) eqn:U; [discriminate|]. eapply f_unit; eassumption.
Qed.
End Fault.
