(** Specification: an expression tree is written with parentheses exactly around the operands that are not strong enough for their place.
    Independent of the parser; no code of /repo. *)
From Verif Require Import Base TokenCodes LexModel Ast Heap Actions ParseModel Grammar Sem Part Expr ExprProof.
Local Open Scope nat_scope.

(** Well-formed apart from parentheses: the lists which must not be empty are not empty, at most one ELSE, date and interval texts are readable. *)
Fixpoint shape (e : ex) : bool :=
  match e with
  | XParen e | XCast e _ | XExtract _ e | XIndex e _ | XUn _ e => shape e
  | XBin _ a b => shape a && shape b
  | XIn _ e l => shape e && forallb shape l && match l with [] => false | _ => true end
  | XInQ _ e _ => shape e
  | XBetween e a b => shape e && shape a && shape b
  | XFun _ _ d l _ => forallb shape l && implb d (match l with [] => false | _ => true end)
  | XArray l => forallb shape l && match l with [] => false | _ => true end
  | XCase w t m els => shape w && shape t && forallb (fun p => shape (fst p) && shape (snd p)) m && forallb shape els && (List.length els <=? 1)
  | XCaseOf x w t m els => shape x && shape w && shape t && forallb (fun p => shape (fst p) && shape (snd p)) m && forallb shape els && (List.length els <=? 1)
  | XDate s => scan_date s
  | XIntervalText s u => match interval_text s u with Some _ => true | None => false end
  | _ => true
  end.
Definition protect (strong : bool) (e : ex) : ex := if strong then e else XParen e.
Fixpoint wrap (e : ex) : ex :=
  match e with
  | XParen e => XParen (wrap e)
  | XUn o e => let e := wrap e in XUn o (protect (operand e && match o with UNeg => 9 <=? xleft e | UNot => 4 <=? xleft e | _ => 7 <=? xright e end) e)
  | XBin o a b => let a := wrap a in let b := wrap b in
    XBin o (protect ((logical o || operand a) && (left_level o <=? xright a)) a) (protect ((logical o || operand b) && (right_level o <=? xleft b)) b)
  | XIn neg e l => let e := wrap e in XIn neg (protect (operand e && implb neg (5 <=? xright e)) e) (map wrap l)
  | XInQ neg e q => let e := wrap e in XInQ neg (protect (operand e && implb neg (5 <=? xright e)) e) q
  | XBetween e a b => let e := wrap e in let a := wrap a in let b := wrap b in XBetween (protect (operand e) e) (protect (operand a) a) (protect (operand b) b)
  | XFun s n d l o => XFun s n d (map wrap l) o
  | XCast e t => XCast (wrap e) t
  | XExtract u e => XExtract u (wrap e)
  | XCase w t m els => XCase (wrap w) (wrap t) (map (fun p => (wrap (fst p), wrap (snd p))) m) (map wrap els)
  | XCaseOf x w t m els => XCaseOf (wrap x) (wrap w) (wrap t) (map (fun p => (wrap (fst p), wrap (snd p))) m) (map wrap els)
  | XArray l => XArray (map wrap l)
  | XIndex e z => let e := wrap e in XIndex (protect (operand e && (12 <=? xright e)) e) z
  | _ => e
  end.

Lemma protect_fits b e : fits e = true -> fits (protect b e) = true. Proof. destruct b; auto. Qed.
Lemma protect_params b e : xparams (protect b e) = xparams e. Proof. destruct b; auto. Qed.
Lemma protect_obj b e k : xobj (protect b e) k = xobj e k. Proof. destruct b; auto. Qed.
Lemma protect_parts b e : xparts (protect b e) = xparts e. Proof. destruct b; auto. Qed.
Lemma protect_if (b : bool) (e : ex) (P : ex -> bool) : P (XParen e) = true -> (b = true -> P e = true) -> P (protect b e) = true. Proof. destruct b; cbn; auto. Qed.
Lemma protect2 (f g : ex -> bool) e : f (XParen e) = true -> g (XParen e) = true -> f (protect (f e && g e) e) = true /\ g (protect (f e && g e) e) = true.
Proof. intros A B. destruct (f e) eqn:F, (g e) eqn:G; cbn [andb protect]; auto. Qed.
Lemma all_wrap l : (forall x, In x l -> shape x = true -> fits (wrap x) = true) -> forallb shape l = true -> forallb fits (map wrap l) = true.
Proof. intros H F. rewrite forallb_forall in *. intros y I. apply in_map_iff in I as (x & <- & I). auto. Qed.
Lemma alls_wrap (m : list (ex * ex)) : (forall p, In p m -> (shape (fst p) = true -> fits (wrap (fst p)) = true) /\ (shape (snd p) = true -> fits (wrap (snd p)) = true)) ->
  forallb (fun p => shape (fst p) && shape (snd p)) m = true -> forallb (fun p => fits (fst p) && fits (snd p)) (map (fun p => (wrap (fst p), wrap (snd p))) m) = true.
Proof.
  intros H F. rewrite forallb_forall in *. intros y I. apply in_map_iff in I as (x & <- & I). specialize (F _ I). apply andb_prop in F as [F1 F2]. destruct (H _ I) as [H1 H2]. cbn [fst snd]. now rewrite H1, H2.
Qed.
Lemma some_map {A B} (f : A -> B) l : (match map f l with [] => false | _ => true end) = match l with [] => false | _ => true end. Proof. destruct l; reflexivity. Qed.
Theorem wrap_fits e : shape e = true -> fits (wrap e) = true.
Proof.
  induction e using ex_ind2; cbn [shape wrap fits]; intros S; auto; repeat match goal with H : _ && _ = true |- _ => apply andb_prop in H as [H ?S] end; rewrite ?some_map, ?map_length.
  - rewrite protect_fits by auto. cbn [andb]. set (b := operand (wrap e) && _). assert (B : b = operand (wrap e) && match o with UNeg => 9 <=? xleft (wrap e) | UNot => 4 <=? xleft (wrap e) | _ => 7 <=? xright (wrap e) end) by reflexivity. clearbody b.
    destruct b; cbn [protect]; [now rewrite <- B|]. destruct o; reflexivity.
  - rewrite !protect_fits by auto. cbn [andb]. set (b1 := _ && (left_level o <=? _)). set (b2 := _ && (right_level o <=? _)).
    destruct (@protect2 (fun x => logical o || operand x) (fun x => left_level o <=? xright x) (wrap e1) ltac:(apply orb_true_r) ltac:(destruct o; reflexivity)) as [A1 A2].
    destruct (@protect2 (fun x => logical o || operand x) (fun x => right_level o <=? xleft x) (wrap e2) ltac:(apply orb_true_r) ltac:(destruct o; reflexivity)) as [B1 B2].
    cbv beta in A1, A2, B1, B2. subst b1 b2. rewrite A2, B2, !andb_true_r. destruct (logical o); cbn [orb] in *; [reflexivity|]. now rewrite A1, B1.
  - rewrite protect_fits by auto. cbn [andb]. rewrite all_wrap by auto. rewrite S0, !andb_true_r. destruct (operand (wrap e) && _) eqn:E; cbn [protect]; [exact E|]. destruct n; reflexivity.
  - rewrite protect_fits by auto. cbn [andb]. destruct (operand (wrap e) && _) eqn:E; cbn [protect]; [exact E|]. destruct n; reflexivity.
  - rewrite !protect_fits by auto. cbn [andb]. assert (O : forall x, operand (protect (operand x) x) = true) by (intro x; destruct (operand x) eqn:OX; [exact OX|reflexivity]). now rewrite !O.
  - rewrite all_wrap by auto. exact S0.
  - rewrite IHe1, IHe2, alls_wrap, all_wrap by auto. exact S0.
  - rewrite IHe1, IHe2, IHe3, alls_wrap, all_wrap by auto. exact S0.
  - rewrite all_wrap by auto. exact S0.
  - rewrite protect_fits by auto. cbn [andb]. destruct (operand (wrap e) && _) eqn:E; cbn [protect]; [exact E|reflexivity].
Qed.
(** It denotes the same object with the same parameters. *)
Lemma sum_map {A} (f g : A -> nat) l : (forall x, In x l -> f x = g x) -> list_sum (map f l) = list_sum (map g l).
Proof. intros H. f_equal. apply map_ext_in. exact H. Qed.
Theorem wrap_params e : xparams (wrap e) = xparams e.
Proof.
  assert (L : forall l, (forall x, In x l -> xparams (wrap x) = xparams x) -> list_sum (map xparams (map wrap l)) = list_sum (map xparams l)).
  { intros l H. rewrite map_map. now apply sum_map. }
  assert (M : forall m : list (ex * ex), (forall p, In p m -> xparams (wrap (fst p)) = xparams (fst p) /\ xparams (wrap (snd p)) = xparams (snd p)) ->
    list_sum (map (fun p => xparams (fst p) + xparams (snd p)) (map (fun p => (wrap (fst p), wrap (snd p))) m)) = list_sum (map (fun p => xparams (fst p) + xparams (snd p)) m)).
  { intros m H. rewrite map_map. apply sum_map. intros p I. cbn [fst snd]. destruct (H p I) as [-> ->]. reflexivity. }
  induction e using ex_ind2; cbn [wrap xparams]; auto; rewrite ?protect_params, ?IHe, ?IHe1, ?IHe2, ?IHe3, ?M, ?L by auto; reflexivity.
Qed.
Lemma numbered_wrap (l : list ex) : (forall x, In x l -> forall k, xobj (wrap x) k = xobj x k) -> forall k, numbered_list xobj xparams (map wrap l) k = numbered_list xobj xparams l k.
Proof. induction l as [|x l IH]; intros H k; [reflexivity|]. cbn [map numbered_list]. rewrite H by (now left). rewrite wrap_params. f_equal. apply IH. intros y I. apply H. now right. Qed.
Lemma whens_wrap (m : list (ex * ex)) : (forall p, In p m -> (forall k, xobj (wrap (fst p)) k = xobj (fst p) k) /\ (forall k, xobj (wrap (snd p)) k = xobj (snd p) k)) -> forall k,
  let f := fun (p : ex * ex) k => case_elem (xobj (fst p) k) (xobj (snd p) (k + xparams (fst p))) in let g := fun p : ex * ex => xparams (fst p) + xparams (snd p) in
  numbered_list f g (map (fun p => (wrap (fst p), wrap (snd p))) m) k = numbered_list f g m k.
Proof.
  intros H k f g. revert k. induction m as [|p m IH]; intros k; [reflexivity|]. cbn [map numbered_list]. destruct (H p (or_introl eq_refl)) as [A B]. unfold f at 1 3, g at 2 4. cbn [fst snd]. rewrite A, B, !wrap_params. f_equal. apply IH. intros q I. apply H. now right.
Qed.
Lemma pm_wrap (m : list (ex * ex)) : list_sum (map (fun p => xparams (fst p) + xparams (snd p)) (map (fun p => (wrap (fst p), wrap (snd p))) m)) = list_sum (map (fun p => xparams (fst p) + xparams (snd p)) m).
Proof. rewrite map_map. apply sum_map. intros p _. cbn [fst snd]. now rewrite !wrap_params. Qed.
Lemma ps_wrap l : list_sum (map xparams (map wrap l)) = list_sum (map xparams l).
Proof. rewrite map_map. apply sum_map. intros x _. apply wrap_params. Qed.
Theorem wrap_obj e : forall k, xobj (wrap e) k = xobj e k.
Proof.
  induction e using ex_ind2; intros k; cbn [wrap xobj]; auto; rewrite ?protect_obj, ?protect_params, ?wrap_params.
  - destruct o; now rewrite IHe.
  - now rewrite IHe1, IHe2.
  - rewrite IHe, numbered_wrap by auto. reflexivity.
  - now rewrite IHe.
  - now rewrite IHe1, IHe2, IHe3.
  - rewrite numbered_wrap by auto. now rewrite ps_wrap.
  - now rewrite IHe.
  - now rewrite IHe.
  - cbv zeta. rewrite IHe1, IHe2. rewrite whens_wrap by auto. rewrite pm_wrap, numbered_wrap by auto. reflexivity.
  - cbv zeta. rewrite IHe1, IHe2, IHe3. rewrite whens_wrap by auto. rewrite pm_wrap, numbered_wrap by auto. reflexivity.
  - rewrite numbered_wrap by auto. reflexivity.
  - now rewrite IHe.
Qed.
Lemma flat_wrap l : (forall x, In x l -> xparts (wrap x) = xparts x) -> flat_map xparts (map wrap l) = flat_map xparts l.
Proof. induction l as [|x l IH]; intros H; [reflexivity|]. cbn [map flat_map]. rewrite H by (now left). f_equal. apply IH. intros y I. apply H. now right. Qed.
Lemma flats_wrap (m : list (ex * ex)) : (forall p, In p m -> xparts (wrap (fst p)) = xparts (fst p) /\ xparts (wrap (snd p)) = xparts (snd p)) ->
  flat_map (fun p => xparts (fst p) ++ xparts (snd p)) (map (fun p => (wrap (fst p), wrap (snd p))) m) = flat_map (fun p => xparts (fst p) ++ xparts (snd p)) m.
Proof. induction m as [|p m IH]; intros H; [reflexivity|]. cbn [map flat_map fst snd]. destruct (H p (or_introl eq_refl)) as [-> ->]. f_equal. apply IH. intros q I. apply H. now right. Qed.
Theorem wrap_parts e : xparts (wrap e) = xparts e.
Proof.
  induction e using ex_ind2; cbn [wrap xparts]; auto; rewrite ?protect_parts, ?flat_wrap, ?flats_wrap by auto; rewrite ?IHe, ?IHe1, ?IHe2, ?IHe3; auto.
Qed.
(** No parentheses are added where none are needed. *)
Lemma map_id_in (l : list ex) : (forall x, In x l -> fits x = true -> wrap x = x) -> forallb fits l = true -> map wrap l = l.
Proof. intros H F. rewrite forallb_forall in F. rewrite <- (map_id l) at 2. apply map_ext_in. auto. Qed.
Lemma maps_id_in (m : list (ex * ex)) : (forall p, In p m -> (fits (fst p) = true -> wrap (fst p) = fst p) /\ (fits (snd p) = true -> wrap (snd p) = snd p)) -> forallb (fun p => fits (fst p) && fits (snd p)) m = true ->
  map (fun p => (wrap (fst p), wrap (snd p))) m = m.
Proof. intros H F. rewrite forallb_forall in F. rewrite <- (map_id m) at 2. apply map_ext_in. intros [a b] I. specialize (F _ I). apply andb_prop in F as [F1 F2]. destruct (H _ I) as [H1 H2]. cbn [fst snd] in *. now rewrite H1, H2. Qed.
Theorem wrap_id e : fits e = true -> wrap e = e.
Proof.
  induction e using ex_ind2; cbn [wrap fits]; intros F; auto; repeat match goal with H : _ && _ = true |- _ => apply andb_prop in H as [H ?F] end;
    rewrite ?IHe, ?IHe1, ?IHe2, ?IHe3 by auto; rewrite ?map_id_in, ?maps_id_in by auto; auto.
  - destruct o; rewrite F0, F1; reflexivity.
  - rewrite F0, F1, !andb_true_r. destruct (logical o); cbn [orb] in *; [reflexivity|]. apply andb_prop in F2 as [-> ->]. reflexivity.
  - rewrite F3, F2. reflexivity.
  - rewrite F1, F0. reflexivity.
  - rewrite F0, F1, F2. reflexivity.
  - rewrite F1, F0. reflexivity.
Qed.
