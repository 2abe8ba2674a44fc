(** Printing the object of an expression, clause or statement gives its outline (Outline.v); no code of /repo. *)
From Verif Require Import Base TokenCodes LexModel Ast Heap Actions ParseModel Grammar Sem Part Expr ExprProof Stmt Legal Own Print PrintCong Outline.
From Coq Require Import String ZifyBool ZifyNat ZifyN. Import ListNotations.
Local Open Scope nat_scope.

(** With enough fuel, [f] prints [l]. *)
Definition ev (f : nat -> prints) (l : list line) : Prop := exists n0, forall n, n0 <= n -> f n = Some l.
Lemma ev_some l : ev (fun _ => Some l) l.
Proof. now exists 0. Qed.
Lemma ev_ext f g l : (forall n, f n = g n) -> ev g l -> ev f l.
Proof. intros E (n0 & H). exists n0. intros n L. rewrite E. auto. Qed.
Lemma ev_S f l : ev (fun n => f (S n)) l -> ev f l.
Proof. intros (n0 & H). exists (S n0). intros [|n] L; [lia|]. apply H. lia. Qed.
Lemma ev_eq f l l' : l = l' -> ev f l -> ev f l'.
Proof. now intros ->. Qed.
Lemma ev_cat f g l l' : ev f l -> ev (fun n => cat (g n)) l' -> ev (fun n => cat (f n :: g n)) (l ++ l').
Proof. intros (n0 & H) (n1 & H1). exists (Nat.max n0 n1). intros n L. cbn [cat]. rewrite H, H1 by lia. reflexivity. Qed.
Lemma ev_nil : ev (fun _ => cat []) [].
Proof. now exists 0. Qed.
Lemma ev_one f l : ev f l -> ev (fun n => cat [f n]) l.
Proof. intro H. rewrite <- (app_nil_r l). apply ev_cat; [exact H|apply ev_nil]. Qed.
Lemma ev_all (f : nat -> val -> prints) l ls : Forall2 (fun x l => ev (fun n => f n x) l) l ls -> ev (fun n => each (f n) l) (List.concat ls).
Proof. induction 1 as [|x l1 l' ls' (n0 & H) _ (n1 & IH)]; [now exists 0|]. exists (Nat.max n0 n1). intros n L. cbn [each List.concat]. rewrite H, IH by lia. reflexivity. Qed.
Lemma ev_strs l i : each (fun x => inprint_str x i) (map str l) = Some (map (said_ i) l).
Proof. induction l as [|s l IH]; [reflexivity|]. cbn [map each]. rewrite IH. reflexivity. Qed.
Lemma ev_numbered {A} (f : nat -> val -> prints) (o : A -> nat -> val) (p : A -> nat) (g : A -> nat -> list line) l : (forall x, In x l -> forall k, ev (fun n => f n (o x k)) (g x k)) ->
  forall k, ev (fun n => each (f n) (numbered_list o p l k)) (lines_of g p l k).
Proof.
  intros H. induction l as [|x l IH]; intro k; [apply ev_some|]. cbn [numbered_list lines_of]. destruct (H x (or_introl eq_refl) k) as (n0 & H0). destruct (IH (fun y I => H y (or_intror I)) (k + p x)) as (n1 & H1).
  exists (Nat.max n0 n1). intros n L. cbn [each]. rewrite H0, H1 by lia. reflexivity.
Qed.
Ltac evs := repeat (first [apply ev_cat|apply ev_nil]).

(** ** Nodes *)
Notation pe := (fun v i => ev (fun n => print_expr n v i)) (only parsing).
Definition on_node (v : val) (t : N) : Prop := present v = Some true /\ mem F_type v = Some (VEnum EExprType t) /\ mem F_alias v = Some VNull.
Lemma ev_leaf v i l : (forall n, print_expr (S n) v i = Some l) -> ev (fun n => print_expr n v i) l.
Proof. intro H. apply ev_S. exists 0. auto. Qed.
Lemma ev_null i : ev (fun n => print_expr n VNull i) [].
Proof. apply ev_leaf. reflexivity. Qed.
Lemma ev_op v i e o s a b lst l1 l2 : on_node v 10 -> mem F_opType v = Some (VEnum e o) -> nth_error operator_names (N.to_nat o) = Some s -> mem F_expr v = Some a -> ev (fun n => print_expr n a (i + 1)) l1 ->
  mem F_expr2 v = Some b -> mem F_exprList v = Some lst ->
  (present b = Some true /\ ev (fun n => print_expr n b (i + 1)) l2 \/ present b = Some false /\ (lst = VNull /\ l2 = [] \/ exists l, lst = vec l /\ ev (fun n => each (fun y => print_expr n y (i + 1)) l) l2)) ->
  ev (fun n => print_expr n v i) (word i s :: l1 ++ l2).
Proof.
  intros (P & T & A) O N X (n1 & E1) B L R. apply ev_S. destruct R as [[PB (n2 & E2)]|[PB [[-> ->]|(l & -> & (n2 & E2))]]].
  - exists (Nat.max n1 n2). intros n Ln. cbn [print_expr]. rewrite P. cbn [obind negb]. rewrite T. cbn [obind enum_of]. unfold on, if_some, inprint_op, named. rewrite O, X, B, A. cbn [obind enum_of]. rewrite N. cbn [obind]. rewrite PB. cbn [obind cat present].
    rewrite E1, E2 by lia. cbn [obind app]. now rewrite app_nil_r.
  - exists n1. intros n Ln. cbn [print_expr]. rewrite P. cbn [obind negb]. rewrite T. cbn [obind enum_of]. unfold on, if_some, inprint_op, named. rewrite O, X, B, A, L. cbn [obind enum_of]. rewrite N. cbn [obind]. rewrite PB. cbn [obind cat present].
    rewrite E1 by lia. cbn [obind app]. reflexivity.
  - exists (Nat.max n1 n2). intros n Ln. cbn [print_expr]. rewrite P. cbn [obind negb]. rewrite T. cbn [obind enum_of]. unfold on, if_some, inprint_op, named. rewrite O, X, B, A, L. cbn [obind enum_of]. rewrite N. cbn [obind]. rewrite PB. unfold vec. cbn [obind cat present items_of].
    rewrite E1, E2 by lia. cbn [obind app]. now rewrite app_nil_r.
Qed.
(** Objects of expressions. *)
Definition known : list N := [0; 1; 2; 3; 4; 5; 6; 7; 8; 9; 10; 11; 13; 14; 15; 16]%N.
Definition node (v : val) : Prop := exists t, In t known /\ on_node v t.
Lemma node_present v : node v -> present v = Some true.
Proof. now intros (t & _ & P & _). Qed.
Lemma xobj_node e : fits e = true -> forall k, node (xobj e k).
Proof.
  induction e using ex_ind2; intros F k; try destruct n; try destruct o;
  try (match goal with |- node (xobj (XIntervalText _ _) _) => cbn [fits xobj] in *; destruct (interval_text s u) as [[z f]|]; [|discriminate F]; exists 5%N; split; [cbn; tauto|repeat split] end);
  try (match goal with |- node (xobj ?x _) => let t := lazymatch x with
      | XCol _ => constr:(8%N) | XQCol _ _ => constr:(8%N) | XStar => constr:(6%N) | XQStar _ => constr:(6%N) | XInt _ => constr:(2%N) | XFlt _ => constr:(0%N) | XStr _ => constr:(1%N) | XBool _ => constr:(2%N)
      | XNull => constr:(3%N) | XDate _ => constr:(4%N) | XInterval _ _ _ => constr:(5%N) | XParam => constr:(7%N) | XFun _ _ _ _ _ => constr:(9%N) | XCast _ _ => constr:(16%N) | XExtract _ _ => constr:(15%N)
      | XArray _ => constr:(13%N) | XIndex _ _ => constr:(14%N) | XQ _ => constr:(11%N) | XParen _ => fail | _ => constr:(10%N) end in exists t; split; [cbn; tauto|split; [reflexivity|split; reflexivity]] end).
  all: cbn [fits xobj] in *; try (apply IHe; assumption).
Qed.
(** A node with an alias. *)
Lemma cat_last xs l y : cat (xs ++ [Some []]) = Some l -> cat (xs ++ [Some y]) = Some (l ++ y).
Proof.
  revert l. induction xs as [|[x|] xs IH]; intros l; cbn [app cat obind]; [intro E; injection E as <-; now rewrite app_nil_r| |discriminate].
  destruct (cat (xs ++ [Some []])) as [l0|]; [|discriminate]. cbn [obind]. intro E. injection E as <-. rewrite (IH l0 eq_refl). cbn [obind]. now rewrite app_assoc.
Qed.
Lemma mem_with f g x v : mem f (with_ [(g, x)] v) = if fld_beq g f then (match v with VObj _ _ _ => match mem g v with Some _ => Some x | None => None end | _ => mem f v end) else mem f v.
Proof. destruct v; cbn [with_ mem]; try (now destruct (fld_beq g f)). cbn [upds]. apply Poke.lookup_update. Qed.
Lemma ev_alias v a i l : node v -> ev (fun n => print_expr n v i) l -> ev (fun n => print_expr n (with_ [(F_alias, str a)] v) i) (l ++ [word (i + 1) "Alias"; said_ (i + 2) a]).
Proof.
  intros (t & K & P & T & A) (n0 & E). apply ev_S. exists n0. intros n L. specialize (E (S n) ltac:(lia)).
  assert (PV : exists b c fs, v = VObj b c fs) by (destruct v; cbn [mem] in T; try discriminate T; [eauto|discriminate P]). destruct PV as (b & c & fs & ->).
  assert (AL : mem F_alias (with_ [(F_alias, str a)] (VObj b c fs)) = Some (str a)) by (rewrite mem_with; cbn [fld_beq fld_code]; rewrite A; reflexivity).
  assert (OT : forall f, fld_beq F_alias f = false -> mem f (with_ [(F_alias, str a)] (VObj b c fs)) = mem f (VObj b c fs)) by (intros f F; rewrite mem_with, F; reflexivity).
  assert (PR : present (with_ [(F_alias, str a)] (VObj b c fs)) = Some true) by reflexivity.
  set (w := with_ [(F_alias, str a)] (VObj b c fs)) in *. clearbody w. set (v := VObj b c fs) in *. clearbody v.
  cbn [print_expr] in *. rewrite PR. rewrite P in E. cbn [obind negb] in *. unfold on, if_some in *. rewrite AL. rewrite A in E.
  repeat match goal with |- context [mem ?f w] => rewrite (OT f eq_refl) end. rewrite T in *. cbn [obind enum_of present] in *.
  unfold known in K. cbn [In] in K. repeat (destruct K as [<-|K]; [first [refine (cat_last [_] _ _ E)|refine (cat_last [_; _] _ _ E)|refine (cat_last [_; _; _] _ _ E)]|]). contradiction.
Qed.

(** ** Expressions *)
Section Sub.
Variable sub : kind * part -> nat -> nat -> list line.
Definition prints_part (c : kind * part) : Prop :=
  forall k i, present (q_obj (snd c) k) = Some true /\ ev (fun n => match fst c with KWindow => print_window n (q_obj (snd c) k) i | _ => print_select n (q_obj (snd c) k) i end) (sub c k i).
Definition prints_ex (e : ex) : Prop := forall k i, ev (fun n => print_expr n (xobj e k) i) (xlines sub e k i).

Lemma ev_unop o s e v l i : nth_error operator_names (N.to_nat o) = Some s -> ev (fun n => print_expr n v (i + 1)) l -> ev (fun n => print_expr n (unop (VEnum e o) v) i) (word i s :: l).
Proof.
  intros N E. rewrite <- (app_nil_r l). eapply (ev_op _ _ e o s); try reflexivity; [repeat split|exact N|exact E|]. right. split; [reflexivity|]. left. auto.
Qed.
Lemma ev_binop o s e a b la_ lb i : nth_error operator_names (N.to_nat o) = Some s -> present b = Some true -> ev (fun n => print_expr n a (i + 1)) la_ -> ev (fun n => print_expr n b (i + 1)) lb ->
  ev (fun n => print_expr n (binop a (VEnum e o) b) i) (word i s :: la_ ++ lb).
Proof. intros N P A B. eapply (ev_op _ _ e o s); try reflexivity; [repeat split|exact N|exact A|]. left. auto. Qed.
Lemma ev_elem w t lw lt i : present t = Some true -> ev (fun n => print_expr n w (i + 1)) lw -> ev (fun n => print_expr n t (i + 1)) lt -> ev (fun n => print_expr n (case_elem w t) i) (word i "CASE LIST ELEMENT" :: lw ++ lt).
Proof. intros P A B. eapply (ev_op _ _ EOperatorType 3%N); try reflexivity; [repeat split|exact A|]. left. auto. Qed.
Lemma ev_case x els w lx ll i : ev (fun n => print_expr n x (i + 1)) lx ->
  (present els = Some true /\ ev (fun n => print_expr n els (i + 1)) ll \/ els = VNull /\ ev (fun n => each (fun y => print_expr n y (i + 1)) w) ll) ->
  ev (fun n => print_expr n (expr kExprOperator [(F_opType, kOpCase); (F_expr, x); (F_expr2, els); (F_exprList, vec w)]) i) (word i "CASE" :: lx ++ ll).
Proof.
  intros X R. eapply (ev_op _ _ EOperatorType 2%N); try reflexivity; [repeat split|exact X|]. destruct R as [R|[-> R]]; [left; exact R|]. right. split; [reflexivity|]. right. exists w. auto.
Qed.
Lemma ev_in x l lx ll i : ev (fun n => print_expr n x (i + 1)) lx -> ev (fun n => each (fun y => print_expr n y (i + 1)) l) ll -> ev (fun n => print_expr n (in_list x (vec l)) i) (word i "IN" :: lx ++ ll).
Proof. intros X L. eapply (ev_op _ _ EOperatorType 21%N); try reflexivity; [repeat split|exact X|]. right. split; [reflexivity|]. right. exists l. auto. Qed.
Lemma ev_inq x q lx i : ev (fun n => print_expr n x (i + 1)) lx -> ev (fun n => print_expr n (in_select x q) i) (word i "IN" :: lx).
Proof. intros X. rewrite <- (app_nil_r lx). eapply (ev_op _ _ EOperatorType 21%N); try reflexivity; [repeat split|exact X|]. right. split; [reflexivity|]. left. auto. Qed.
Lemma ev_exists q i : ev (fun n => print_expr n (exists_ q) i) [word i "EXISTS"].
Proof. change [word i "EXISTS"] with (word i "EXISTS" :: [] ++ []). eapply (ev_op _ _ EOperatorType 26%N); try reflexivity; [repeat split|apply ev_null|]. right. split; [reflexivity|]. left. auto. Qed.
Lemma ev_between x a b lx l1 l2 i : ev (fun n => print_expr n x (i + 1)) lx -> ev (fun n => print_expr n a (i + 1)) l1 -> ev (fun n => print_expr n b (i + 1)) l2 ->
  ev (fun n => print_expr n (expr kExprOperator [(F_opType, kOpBetween); (F_expr, x); (F_exprList, vec [a; b])]) i) (word i "BETWEEN" :: lx ++ l1 ++ l2).
Proof.
  intros X A B. eapply (ev_op _ _ EOperatorType 1%N); try reflexivity; [repeat split|exact X|]. right. split; [reflexivity|]. right. exists [a; b]. split; [reflexivity|].
  rewrite <- (app_nil_r l2). apply (ev_all (fun n y => print_expr n y (i + 1)) [a; b] [l1; l2]). repeat constructor; assumption.
Qed.
Ltac open_node P T := cbn [print_expr]; rewrite P; cbn [obind negb]; rewrite T; cbn [obind enum_of]; unfold on, if_some.
Lemma ev_func sc name args d w la_ lw i : ev (fun n => each (fun y => print_expr n y (i + 1)) args) la_ ->
  (w = VNull /\ lw = [] \/ present w = Some true /\ ev (fun n => print_window n w (i + 1)) lw) -> ev (fun n => print_expr n (func sc (str name) (vec args) d w) i) (said_ i name :: la_ ++ lw).
Proof.
  intros (n1 & E1) R. set (v := func _ _ _ _ _). assert (ND : on_node v 9) by (repeat split). assert (M1 : mem F_name v = Some (str name)) by reflexivity. assert (M2 : mem F_exprList v = Some (vec args)) by reflexivity.
  assert (M3 : mem F_windowDescription v = Some w) by reflexivity. clearbody v. destruct ND as (P & T & A). apply ev_S. destruct R as [[-> ->]|[PW (n2 & E2)]].
  - exists n1. intros n L. open_node P T. rewrite M1, M2, M3, A. unfold vec. cbn [obind items_of present cat]. rewrite E1 by lia. reflexivity.
  - exists (Nat.max n1 n2). intros n L. open_node P T. rewrite M1, M2, M3, A. cbn [obind]. rewrite PW. unfold vec. cbn [obind items_of present cat]. rewrite E1, E2 by lia. cbn [obind app]. now rewrite app_nil_r.
Qed.
Lemma ctype_shown t i : inprint_type (ctype_obj t) i = Some [Out i (ctype_line t)].
Proof. destruct t; reflexivity. Qed.
Lemma ev_cast e t l i : ev (fun n => print_expr n e (i + 1)) l -> ev (fun n => print_expr n (Sem.cast e (ctype_obj t)) i) (word i "CAST" :: Out (i + 1) (ctype_line t) :: l).
Proof.
  intros (n1 & E1). set (v := Sem.cast _ _). assert (ND : on_node v 16) by (repeat split). assert (M1 : mem F_columnType v = Some (ctype_obj t)) by reflexivity. assert (M2 : mem F_expr v = Some e) by reflexivity. clearbody v. destruct ND as (P & T & A). apply ev_S.
  exists n1. intros n L. open_node P T. rewrite M1, M2, A. cbn [obind present cat]. rewrite ctype_shown. rewrite E1 by lia. cbn [obind]. rewrite app_nil_r. reflexivity.
Qed.
Lemma ev_extract u e l i : ev (fun n => print_expr n e (i + 1)) l -> ev (fun n => print_expr n (expr kExprExtract [(F_datetimeField, unit_obj u); (F_expr, e)]) i) (word i "EXTRACT" :: word (i + 1) (unit_name u) :: l).
Proof.
  intros (n1 & E1). set (v := expr _ _). assert (ND : on_node v 15) by (repeat split). assert (M1 : mem F_datetimeField v = Some (unit_obj u)) by reflexivity. assert (M2 : mem F_expr v = Some e) by reflexivity. clearbody v. destruct ND as (P & T & A). apply ev_S.
  exists n1. intros n L. open_node P T. rewrite M1, M2, A. cbn [obind present cat]. rewrite E1 by lia. cbn [obind]. rewrite app_nil_r. destruct u; reflexivity.
Qed.
Lemma ev_array args l i : ev (fun n => each (fun y => print_expr n y (i + 1)) args) l -> ev (fun n => print_expr n (expr kExprArray [(F_exprList, vec args)]) i) l.
Proof.
  intros (n1 & E1). set (v := expr _ _). assert (ND : on_node v 13) by (repeat split). assert (M1 : mem F_exprList v = Some (vec args)) by reflexivity. clearbody v. destruct ND as (P & T & A). apply ev_S.
  exists n1. intros n L. open_node P T. rewrite M1, A. unfold vec. cbn [obind present cat items_of]. rewrite E1 by lia. cbn [obind]. now rewrite app_nil_r.
Qed.
Lemma ev_index e z l i : ev (fun n => print_expr n e (i + 1)) l -> ev (fun n => print_expr n (expr kExprArrayIndex [(F_expr, e); (F_ival, VInt z)]) i) (l ++ [int_line i z]).
Proof.
  intros (n1 & E1). set (v := expr _ _). assert (ND : on_node v 14) by (repeat split). assert (M1 : mem F_expr v = Some e) by reflexivity. assert (M2 : mem F_ival v = Some (VInt z)) by reflexivity. clearbody v. destruct ND as (P & T & A). apply ev_S.
  exists n1. intros n L. open_node P T. rewrite M1, M2, A. cbn [obind present cat]. rewrite E1 by lia. reflexivity.
Qed.
Lemma ev_query q l i : ev (fun n => print_select n q i) l -> ev (fun n => print_expr n (expr kExprSelect [(F_select, q)]) i) l.
Proof.
  intros (n1 & E1). set (v := expr _ _). assert (ND : on_node v 11) by (repeat split). assert (M1 : mem F_select v = Some q) by reflexivity. clearbody v. destruct ND as (P & T & A). apply ev_S.
  exists n1. intros n L. open_node P T. rewrite M1, A. cbn [obind present cat]. rewrite E1 by lia. cbn [obind]. now rewrite app_nil_r.
Qed.
Lemma ev_negated b v (f : nat -> list line) i : (forall i, ev (fun n => print_expr n v i) (f i)) -> ev (fun n => print_expr n (if b : bool then unop kOpNot v else v) i) (if b then word i "NOT" :: f (i + 1) else f i).
Proof. intro H. destruct b; [apply ev_unop; [reflexivity|apply H]|apply H]. Qed.
Lemma unit_field u i : inprint_field (unit_obj u) i = Some [word i (unit_name u)]. Proof. destruct u; reflexivity. Qed.
Lemma text_unit s u z f : interval_text s u = Some (z, f) -> exists u, f = unit_obj u.
Proof.
  destruct u as [u|]; cbn [interval_text].
  - destruct (scan_interval1 s); try discriminate. intro E. injection E as _ <-. eauto.
  - destruct (scan_interval2 s); try discriminate. unfold unit_of. repeat match goal with |- context [if ?b then _ else _] => destruct b end; intro E; try discriminate E; injection E as _ <-;
      [exists Second|exists Minute|exists Hour|exists Day|exists Month|exists Year]; reflexivity.
Qed.
Lemma ev_interval z u i : ev (fun n => print_expr n (interval z (unit_obj u)) i) [word i "INTERVAL"; int_line (i + 1) z; word (i + 1) (unit_name u)].
Proof. apply ev_leaf. intro n. destruct u; reflexivity. Qed.
Lemma ev_list l : (forall x, In x l -> prints_ex x) -> forall k i, ev (fun n => each (fun y => print_expr n y i) (numbered_list xobj xparams l k)) (lines_of (fun x k => xlines sub x k i) xparams l k).
Proof. intros H k i. apply (ev_numbered (fun n y => print_expr n y i)). intros x I k'. now apply H. Qed.
Lemma In_fits l x : forallb fits l = true -> In x l -> fits x = true. Proof. intro F. now apply (proj1 (forallb_forall fits l) F). Qed.
Lemma hd_objs els k : List.length els <= 1 -> hd VNull (numbered_list xobj xparams els k) = match els with [] => VNull | x :: _ => xobj x k end.
Proof. destruct els; reflexivity. Qed.
Lemma ev_whens m : (forall p, In p m -> prints_ex (fst p) /\ prints_ex (snd p) /\ fits (snd p) = true) -> forall k i,
  ev (fun n => each (fun y => print_expr n y i) (numbered_list (fun p k => case_elem (xobj (fst p) k) (xobj (snd p) (k + xparams (fst p)))) (fun p => xparams (fst p) + xparams (snd p)) m k))
     (lines_of (fun p k => word i "CASE LIST ELEMENT" :: xlines sub (fst p) k (i + 1) ++ xlines sub (snd p) (k + xparams (fst p)) (i + 1)) (fun p => xparams (fst p) + xparams (snd p)) m k).
Proof.
  intros H k i. apply (ev_numbered (fun n y => print_expr n y i)). intros p I k'. destruct (H p I) as (A & B & F). apply ev_elem; [apply node_present, xobj_node, F|apply A|apply B].
Qed.
Lemma case_shown x lx w t m els i k0 k1 pe : prints_ex w -> prints_ex t -> fits t = true -> (forall p, In p m -> prints_ex (fst p) /\ prints_ex (snd p) /\ fits (snd p) = true) -> (forall e, In e els -> prints_ex e /\ fits e = true) ->
  List.length els <= 1 -> ev (fun n => print_expr n x (i + 1)) lx ->
  ev (fun n => print_expr n (expr kExprOperator [(F_opType, kOpCase); (F_expr, x); (F_expr2, hd VNull (numbered_list xobj xparams els pe));
        (F_exprList, vec (case_elem (xobj w k0) (xobj t (k0 + xparams w)) :: numbered_list (fun p k => case_elem (xobj (fst p) k) (xobj (snd p) (k + xparams (fst p)))) (fun p => xparams (fst p) + xparams (snd p)) m k1))]) i)
     (word i "CASE" :: lx ++ match els with
      | x :: _ => xlines sub x pe (i + 1)
      | [] => word (i + 1) "CASE LIST ELEMENT" :: xlines sub w k0 (i + 2) ++ xlines sub t (k0 + xparams w) (i + 2) ++
          lines_of (fun p k => word (i + 1) "CASE LIST ELEMENT" :: xlines sub (fst p) k (i + 1 + 1) ++ xlines sub (snd p) (k + xparams (fst p)) (i + 1 + 1)) (fun p => xparams (fst p) + xparams (snd p)) m k1 end).
Proof.
  intros Hw Ht Ft Hm Hels L Hx. apply ev_case; [exact Hx|]. rewrite hd_objs by exact L. destruct els as [|e els].
  - right. split; [reflexivity|]. destruct (ev_whens m Hm k1 (i + 1)) as (n2 & E2). replace (i + 2) with (i + 1 + 1) by lia.
    destruct (ev_elem _ _ _ _ (i + 1) (node_present _ (xobj_node _ Ft (k0 + xparams w))) (Hw k0 (i + 1 + 1)) (Ht (k0 + xparams w) (i + 1 + 1))) as (n1 & E1).
    exists (Nat.max n1 n2). intros n Ln. cbn [each]. rewrite E1, E2 by lia. cbn [obind app]. now rewrite <- !app_assoc.
  - left. destruct (Hels e (or_introl eq_refl)) as [He Fe]. split; [apply node_present, xobj_node, Fe|apply He].
Qed.
Lemma ex_prints e : fits e = true -> (forall c, In c (xparts e) -> prints_part c) -> prints_ex e.
Proof.
  induction e using ex_ind2; intros F PP k i; cbn [fits xparts] in F, PP; try (apply ev_leaf; reflexivity).
  - (* INTERVAL u *) apply ev_interval.
  - (* INTERVAL text *) cbn [xobj xlines]. destruct (interval_text s u) as [[z f]|] eqn:E; [|discriminate F]. destruct (text_unit _ _ _ _ E) as (u0 & ->).
    replace (field_name (unit_obj u0)) with (unit_name u0) by (destruct u0; reflexivity). apply ev_interval.
  - (* parentheses *) apply IHe; assumption.
  - (* unary *) destruct (fits e) eqn:Fe; [|discriminate F]. assert (H : prints_ex e) by (apply IHe; auto). destruct o; cbn [xobj xlines]; try (apply ev_unop; [reflexivity|]; apply H).
    apply ev_unop; [reflexivity|]. apply ev_unop; [reflexivity|]. replace (i + 1 + 1) with (i + 2) by lia. apply H.
  - (* binary *) destruct (fits e1) eqn:F1; [|discriminate F]. destruct (fits e2) eqn:F2; [|discriminate F].
    assert (H1 : prints_ex e1) by (apply IHe1; [reflexivity|intros; apply PP, in_or_app; auto]). assert (H2 : prints_ex e2) by (apply IHe2; [reflexivity|intros; apply PP, in_or_app; auto]).
    cbn [xobj xlines]. pose proof (node_present _ (xobj_node e2 F2 (k + xparams e1))) as PR. destruct o; (apply ev_binop; [reflexivity|exact PR|apply H1|apply H2]).
  - (* IN list *) destruct (fits e) eqn:Fe; [|discriminate F]. assert (H1 : prints_ex e) by (apply IHe; [reflexivity|intros; apply PP, in_or_app; auto]).
    assert (FL : forallb fits l = true) by (destruct (forallb fits l); [reflexivity|]; rewrite !andb_false_r in F; discriminate F).
    assert (HL : forall x, In x l -> prints_ex x) by (intros x I; apply H; [exact I|eapply In_fits; eassumption|intros c Ic; apply PP, in_or_app; right; apply in_flat_map; eauto]).
    cbn [xobj xlines]. apply (ev_negated n _ (fun d => word d "IN" :: xlines sub e k (d + 1) ++ lines_of (fun x k => xlines sub x k (d + 1)) xparams l (k + xparams e))). intro j. apply ev_in; [apply H1|apply ev_list, HL].
  - (* IN select *) destruct (fits e) eqn:Fe; [|discriminate F]. assert (H1 : prints_ex e) by (apply IHe; [reflexivity|intros; apply PP, in_or_app; auto]).
    cbn [xobj xlines]. apply (ev_negated n _ (fun d => word d "IN" :: xlines sub e k (d + 1))). intro j. apply ev_inq, H1.
  - (* BETWEEN *) destruct (fits e1) eqn:F1; [|discriminate F]. destruct (fits e2) eqn:F2; [|discriminate F]. destruct (fits e3) eqn:F3; [|discriminate F].
    cbn [xobj xlines]. apply ev_between; [apply IHe1|apply IHe2|apply IHe3]; auto; intros; apply PP; rewrite !in_app_iff; auto.
  - (* function *) assert (FL : forallb fits l = true) by (destruct (forallb fits l); [reflexivity|]; discriminate F).
    assert (HL : forall x, In x l -> prints_ex x) by (intros x I; apply H; [exact I|eapply In_fits; eassumption|intros c Ic; apply PP, in_or_app; left; apply in_flat_map; eauto]).
    cbn [xobj xlines]. apply ev_func; [apply ev_list, HL|]. destruct o as [p|]; [right|left; auto].
    pose proof (PP (KWindow, p) ltac:(apply in_or_app; right; now left)) as PW. split; apply PW; exact 0.
  - (* CAST *) apply ev_cast. apply IHe; auto.
  - (* EXTRACT *) apply ev_extract. apply IHe; auto.
  - (* CASE *) apply andb_prop in F as [F FL]. apply andb_prop in F as [F FE]. apply andb_prop in F as [F FM]. apply andb_prop in F as [F1 F2].
    assert (HM : forall p, In p m -> prints_ex (fst p) /\ prints_ex (snd p) /\ fits (snd p) = true).
    { intros p I. rewrite forallb_forall in FM. specialize (FM p I). apply andb_prop in FM as [A B]. destruct (H p I) as [HA HB].
      assert (G : forall c, In c (xparts (fst p) ++ xparts (snd p)) -> prints_part c) by (intros c Ic; apply PP; rewrite !in_app_iff; right; right; left; apply in_flat_map; eauto).
      split; [apply HA|split; [apply HB|]]; auto; intros; apply G, in_or_app; auto. }
    assert (HE : forall x, In x els -> prints_ex x /\ fits x = true) by (intros x I; rewrite forallb_forall in FE; specialize (FE x I); split; [apply H0; auto; intros c Ic; apply PP; rewrite !in_app_iff; right; right; right; apply in_flat_map; eauto|exact FE]).
    apply (case_shown VNull []); auto; [apply IHe1|apply IHe2| |apply ev_null]; auto; try (intros; apply PP; rewrite !in_app_iff; auto; fail). now apply Nat.leb_le.
  - apply andb_prop in F as [F FL]. apply andb_prop in F as [F FE]. apply andb_prop in F as [F FM]. apply andb_prop in F as [F F2]. apply andb_prop in F as [F0 F1].
    assert (HM : forall p, In p m -> prints_ex (fst p) /\ prints_ex (snd p) /\ fits (snd p) = true).
    { intros p I. rewrite forallb_forall in FM. specialize (FM p I). apply andb_prop in FM as [A B]. destruct (H p I) as [HA HB].
      assert (G : forall c, In c (xparts (fst p) ++ xparts (snd p)) -> prints_part c) by (intros c Ic; apply PP; rewrite !in_app_iff; right; right; right; left; apply in_flat_map; eauto).
      split; [apply HA|split; [apply HB|]]; auto; intros; apply G, in_or_app; auto. }
    assert (HE : forall x, In x els -> prints_ex x /\ fits x = true) by (intros x I; rewrite forallb_forall in FE; specialize (FE x I); split; [apply H0; auto; intros c Ic; apply PP; rewrite !in_app_iff; right; right; right; right; apply in_flat_map; eauto|exact FE]).
    apply case_shown; auto; [apply IHe2|apply IHe3| |apply IHe1]; auto; try (intros; apply PP; rewrite !in_app_iff; auto; fail). now apply Nat.leb_le.
  - (* ARRAY *) assert (FL : forallb fits l = true) by (destruct (forallb fits l); [reflexivity|]; discriminate F).
    assert (HL : forall x, In x l -> prints_ex x) by (intros x I; apply H; [exact I|eapply In_fits; eassumption|intros c Ic; apply PP; apply in_flat_map; eauto]).
    cbn [xobj xlines]. apply ev_array, ev_list, HL.
  - (* index *) destruct (fits e) eqn:Fe; [|discriminate F]. cbn [xobj xlines]. apply ev_index. apply IHe; auto.
  - (* subquery *) cbn [xobj xlines]. apply ev_query. apply (PP (KQuery, q)). now left.
  - (* EXISTS *) cbn [xobj xlines]. apply (ev_negated n _ (fun d => [word d "EXISTS"])). intro j. apply ev_exists.
Qed.
End Sub.
