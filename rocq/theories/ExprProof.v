(** Every expression which [fits] is said by the grammar symbol expr; no code of /repo. *)
From Verif Require Export Said.
From Coq Require Import ZifyBool ZifyNat ZifyN.
Local Open Scope nat_scope.
Set Implicit Arguments.
Unset Strict Implicit.

(** Induction on expressions. *)
Section ExInd.
Variable P : ex -> Prop.
Hypotheses (HCol : forall n, P (XCol n)) (HQCol : forall t n, P (XQCol t n)) (HStar : P XStar) (HQStar : forall t, P (XQStar t))
  (HInt : forall z, P (XInt z)) (HFlt : forall f, P (XFlt f)) (HStr : forall s, P (XStr s)) (HBool : forall b, P (XBool b)) (HNull : P XNull) (HDate : forall s, P (XDate s))
  (HInterval : forall z u p, P (XInterval z u p)) (HIntervalText : forall s u, P (XIntervalText s u)) (HParam : P XParam)
  (HParen : forall e, P e -> P (XParen e)) (HUn : forall o e, P e -> P (XUn o e)) (HBin : forall o a b, P a -> P b -> P (XBin o a b))
  (HIn : forall n e l, P e -> (forall x, In x l -> P x) -> P (XIn n e l)) (HInQ : forall n e q, P e -> P (XInQ n e q)) (HBetween : forall e a b, P e -> P a -> P b -> P (XBetween e a b))
  (HFun : forall s n d l o, (forall x, In x l -> P x) -> P (XFun s n d l o)) (HCast : forall e t, P e -> P (XCast e t)) (HExtract : forall u e, P e -> P (XExtract u e))
  (HCase : forall w t m els, P w -> P t -> (forall p, In p m -> P (fst p) /\ P (snd p)) -> (forall x, In x els -> P x) -> P (XCase w t m els))
  (HCaseOf : forall x w t m els, P x -> P w -> P t -> (forall p, In p m -> P (fst p) /\ P (snd p)) -> (forall x, In x els -> P x) -> P (XCaseOf x w t m els))
  (HArray : forall l, (forall x, In x l -> P x) -> P (XArray l)) (HIndex : forall e z, P e -> P (XIndex e z)) (HQ : forall q, P (XQ q)) (HExists : forall n q, P (XExists n q)).
Fixpoint ex_ind2 (e : ex) : P e :=
  let all := fix all (l : list ex) : forall x, In x l -> P x :=
    match l with [] => fun x (I : False) => match I with end | y :: l' => fun x I => match I with or_introl E => eq_ind y P (ex_ind2 y) x E | or_intror I' => all l' x I' end end in
  let alls := fix alls (l : list (ex * ex)) : forall p, In p l -> P (fst p) /\ P (snd p) :=
    match l with
    | [] => fun p (I : False) => match I with end
    | y :: l' => fun p I => match I with or_introl E => eq_ind y (fun p => P (fst p) /\ P (snd p)) (conj (ex_ind2 (fst y)) (ex_ind2 (snd y))) p E | or_intror I' => alls l' p I' end
    end in
  match e with
  | XCol n => HCol n | XQCol t n => HQCol t n | XStar => HStar | XQStar t => HQStar t | XInt z => HInt z | XFlt f => HFlt f | XStr s => HStr s | XBool b => HBool b | XNull => HNull
  | XDate s => HDate s | XInterval z u p => HInterval z u p | XIntervalText s u => HIntervalText s u | XParam => HParam | XParen e => HParen (ex_ind2 e) | XUn o e => HUn o (ex_ind2 e) | XBin o a b => HBin o (ex_ind2 a) (ex_ind2 b)
  | XIn n e l => HIn n (ex_ind2 e) (all l) | XInQ n e q => HInQ n q (ex_ind2 e) | XBetween e a b => HBetween (ex_ind2 e) (ex_ind2 a) (ex_ind2 b)
  | XFun s n d l o => HFun s n d o (all l) | XCast e t => HCast t (ex_ind2 e) | XExtract u e => HExtract u (ex_ind2 e)
  | XCase w t m els => HCase (ex_ind2 w) (ex_ind2 t) (alls m) (all els) | XCaseOf x w t m els => HCaseOf (ex_ind2 x) (ex_ind2 w) (ex_ind2 t) (alls m) (all els)
  | XArray l => HArray (all l) | XIndex e z => HIndex z (ex_ind2 e) | XQ q => HQ q | XExists n q => HExists n q
  end.
End ExInd.

(** The grammar symbol of a part. *)
Definition kind_sym (c : kind) : N := match c with KQuery => S_select_no_paren | KWindow => S_opt_window | KTable => S_select_statement end.
Definition kind_level (c : kind) : nat := match c with KWindow => 12 | _ => 0 end.
Definition part_ok (c : kind * part) : Prop :=
  let (c, p) := c in forall k, q_ok p k = true /\ said (kind_sym c) (q_tok p) k (q_obj p k) (k + q_params p) (kind_level c) (kind_level c) (q_stack p).
Definition ex_ok (e : ex) : Prop :=
  (forall k, said S_expr (xtok e) k (xobj e k) (k + xparams e) (xright e) (xleft e) (xstack e)) /\
  (operand e = true -> (forall k, said S_operand (xtok e) k (xobj e k) (k + xparams e) (xright e) (xleft e) (xstack e)) /\ 4 <= xright e).
Lemma xright_12 e : xright e <= 12.
Proof. induction e; cbn [xright]; try lia; destruct o; cbn [blevel]; lia. Qed.
Lemma xleft_12 e : xleft e <= 12.
Proof. induction e; cbn [xleft]; try lia; try (destruct o; cbn [blevel]; lia); destruct neg; lia. Qed.
Lemma operand_ok e : (forall k, said S_operand (xtok e) k (xobj e k) (k + xparams e) (xright e) (xleft e) (xstack e)) -> 4 <= xright e -> ex_ok e.
Proof. intros H R. split; [|intros _; now split]. intros k. up 183%N; [apply xright_12|apply H]. Qed.
(** expr_alias without an alias, expr_list. *)
Lemma alias_ok e : ex_ok e -> forall k, said S_expr_alias (xtok e) k (xobj e k) (k + xparams e) 0 0 (Nat.max 2 (xstack e)).
Proof.
  intros [H _] k. specialize (H k). pose proof (said_pos H). assert (N : said S_opt_alias [] (k + xparams e) VNull (k + xparams e) 12 12 1) by none 320%N.
  rl 182%N 0 0 (H, (N, tt)).
Qed.
Lemma list_ok l : l <> [] -> (forall e, In e l -> ex_ok e) -> forall k, said S_expr_list (commas (map xtok l)) k (vec (numbered_list xobj xparams l k)) (k + list_sum (map xparams l)) 0 0 (exprs_stack (map xstack l)).
Proof. intros N H k. unfold exprs_stack. rewrite map_map. revert k. apply (@said_commas _ _ _ _ _ S_expr_list S_expr_alias 171%N 172%N); try reflexivity; auto. intros e I. apply alias_ok. auto. Qed.

Ltac start := let F := fresh "F" in let Q := fresh "Q" in intros F Q; cbn [fits xparts] in F, Q; repeat match goal with H : (_ && _)%bool = true |- _ => apply andb_true_iff in H as [? H] end; rewrite ?Forall_app in Q.
Lemma ctype_ok t k : said S_column_type (ctype_tok t) k (ctype_obj t) k 12 12 6.
Proof.
  assert (O1 : said S_opt_decimal_specification [] k (obj CPairInt []) k 12 12 1) by none 89%N.
  assert (O2 : said S_opt_time_precision [] k (VInt 0) k 12 12 1) by none 86%N.
  destruct t; cbn [ctype_tok ctype_obj].
  - rl 67%N 12 12 tt. - rl 68%N 12 12 tt. - rl 69%N 12 12 (@said_num n, tt). - rl 70%N 12 12 (@said_num n, tt). - rl 84%N 12 12 (@said_num n, tt). - rl 71%N 12 12 tt. - rl 72%N 12 12 tt. - rl 83%N 12 12 tt.
  - rl 73%N 12 12 (O1, tt).
  - assert (O : said S_opt_decimal_specification [lpar; Num p; rpar] k (obj CPairInt [(F_first, VInt p)]) k 12 12 3) by rl 88%N 12 12 (@said_num p, tt). rl 73%N 12 12 (O, tt).
  - assert (O : said S_opt_decimal_specification [lpar; Num p; comma; Num s; rpar] k (obj CPairInt [(F_first, VInt p); (F_second, VInt s)]) k 12 12 5) by rl 87%N 12 12 (@said_num p, (@said_num s, tt)). rl 73%N 12 12 (O, tt).
  - rl 74%N 12 12 tt. - rl 75%N 12 12 tt. - rl 76%N 12 12 tt. - rl 77%N 12 12 tt. - rl 78%N 12 12 tt. - rl 79%N 12 12 tt. - rl 80%N 12 12 tt. - rl 81%N 12 12 tt.
  - rl 82%N 12 12 (O2, tt).
  - assert (O : said S_opt_time_precision [lpar; Num p; rpar] k (VInt p) k 12 12 3) by rl 85%N 12 12 (@said_num p, tt). rl 82%N 12 12 (O, tt).
Qed.
(** CASE lists. *)
Definition whens_tok (m : list (ex * ex)) : toks := flat_map (fun p => when_ (xtok (fst p)) (xtok (snd p))) m.
Definition whens_par (m : list (ex * ex)) : nat := list_sum (map (fun p => xparams (fst p) + xparams (snd p)) m).
Definition whens_obj (m : list (ex * ex)) (k : nat) : list val :=
  numbered_list (fun p k => case_elem (xobj (fst p) k) (xobj (snd p) (k + xparams (fst p)))) (fun p => xparams (fst p) + xparams (snd p)) m k.
Definition whens_stack (w t : ex) (m : list (ex * ex)) : nat :=
  Nat.max (stack [1; xstack w; 1; xstack t]) (fold_right Nat.max 1 (map (fun p => stack [1; 1; xstack (fst p); 1; xstack (snd p)]) m)).
Lemma fold_max_snoc l x : fold_right Nat.max 1 (l ++ [x]) = Nat.max (fold_right Nat.max 1 l) x.
Proof. induction l as [|y l IH]; cbn [app fold_right]; lia. Qed.
Lemma whens_tok_snoc m w t : whens_tok (m ++ [(w, t)]) = whens_tok m ++ when_ (xtok w) (xtok t).
Proof. unfold whens_tok. rewrite flat_map_app. cbn [flat_map fst snd]. now rewrite app_nil_r. Qed.
Lemma whens_obj_snoc m w t k : whens_obj (m ++ [(w, t)]) k = whens_obj m k ++ [case_elem (xobj w (k + whens_par m)) (xobj t (k + whens_par m + xparams w))].
Proof. unfold whens_obj. rewrite numbered_snoc. reflexivity. Qed.
Lemma whens_par_snoc m w t : whens_par (m ++ [(w, t)]) = whens_par m + (xparams w + xparams t).
Proof. unfold whens_par. rewrite map_app, list_sum_app. cbn [map list_sum fold_right fst snd]. lia. Qed.
Lemma whens_ok w t m : ex_ok w -> ex_ok t -> (forall p, In p m -> ex_ok (fst p) /\ ex_ok (snd p)) ->
  forall k, said S_case_list (whens_tok ((w, t) :: m)) k (expr kExprOperator [(F_exprList, vec (whens_obj ((w, t) :: m) k))]) (k + whens_par ((w, t) :: m)) 0 0 (whens_stack w t m).
Proof.
  intros W T. induction m as [|[w2 t2] m IH] using rev_ind; intros H k.
  - pose proof (proj1 W k) as A. pose proof (proj1 T (k + xparams w)) as B. rl 227%N 0 0 (A, (B, tt)).
    + cbn [whens_tok flat_map fst snd]. tk.
    + unfold whens_par. cbn [map list_sum fold_right fst snd]. lia.
    + unfold whens_stack. cbn [map fold_right stack stack_from]. lia.
  - destruct (H (w2, t2)) as [W2 T2]; [apply in_or_app; right; now left|]. cbn [fst snd] in W2, T2. specialize (IH (fun p I => H p (in_or_app _ _ _ (or_introl I))) k).
    pose proof (proj1 W2 (k + whens_par ((w, t) :: m))) as A. pose proof (proj1 T2 (k + whens_par ((w, t) :: m) + xparams w2)) as B. rl 228%N 0 0 (IH, (A, (B, tt))).
    + rewrite app_comm_cons, whens_tok_snoc. tk.
    + rewrite app_comm_cons, whens_obj_snoc. reflexivity.
    + rewrite app_comm_cons, whens_par_snoc. lia.
    + unfold whens_stack. rewrite map_app. cbn [map fst snd]. rewrite fold_max_snoc. cbn [stack stack_from]. lia.
Qed.

Lemma forall_flat A B (P : B -> Prop) (f : A -> list B) l : Forall P (flat_map f l) -> forall x, In x l -> Forall P (f x).
Proof. intros F x I. rewrite Forall_forall in *. intros y J. apply F. apply in_flat_map. eauto. Qed.
Lemma literal_ok l k v k' m : said S_literal l k v k' 12 12 m -> said S_operand l k v k' 12 12 m.
Proof. intros H. up 190%N. up 200%N. exact H. Qed.
Lemma unit_ok u k : said S_datetime_field [unit_tok u] k (unit_obj u) k 12 12 1.
Proof. destruct u; [rl 259%N 12 12 tt|rl 260%N 12 12 tt|rl 261%N 12 12 tt|rl 262%N 12 12 tt|rl 263%N 12 12 tt|rl 264%N 12 12 tt]. Qed.
Lemma units_ok u k : said S_datetime_field_plural [units_tok u] k (unit_obj u) k 12 12 1.
Proof. destruct u; [rl 265%N 12 12 tt|rl 266%N 12 12 tt|rl 267%N 12 12 tt|rl 268%N 12 12 tt|rl 269%N 12 12 tt|rl 270%N 12 12 tt]. Qed.
Lemma interval_ok z u (pl : bool) k : said S_interval_literal [Num z; if pl then units_tok u else unit_tok u] k (interval z (unit_obj u)) k 12 12 2.
Proof.
  assert (D : said S_duration_field [if pl then units_tok u else unit_tok u] k (unit_obj u) k 12 12 1) by (destruct pl; [up 272%N; apply units_ok|up 271%N; apply unit_ok]).
  rl 295%N 12 12 (@said_num z, (D, tt)).
Qed.
Lemma int_ok z k : said S_int_literal [Num z] k (int_lit z) k 12 12 1.
Proof. rl 292%N 12 12 (@said_num z, tt). Qed.
Lemma unary_ok o e : ex_ok e -> operand e = true -> match o with UNeg => 9 <= xleft e | UNot => 4 <= xleft e | _ => 7 <= xright e end -> ex_ok (XUn o e).
Proof.
  intros [_ H] O C. destruct (H O) as [H1 R]. clear H. apply operand_ok; [|destruct o; cbn [xright]; lia]. intros k. specialize (H1 k). up 191%N; [apply xright_12|].
  destruct o; cbn [xleft xright xtok xobj xparams xstack].
  - rl 201%N (Nat.min 8 (xright e)) 12 (H1, tt).
  - rl 202%N (Nat.min 4 (xright e)) 12 (H1, tt).
  - rl 204%N 12 (Nat.min 7 (xleft e)) (H1, tt).
  - rl 203%N 12 (Nat.min 7 (xleft e)) (H1, tt).
  - rl 205%N 12 (Nat.min 7 (xleft e)) (H1, tt).
Qed.
Lemma binary_ok o a b : ex_ok a -> ex_ok b -> logical o || operand a && operand b = true -> left_level o <= xright a -> right_level o <= xleft b -> ex_ok (XBin o a b).
Proof.
  intros [EA HA] [EB HB] OP CA CB. destruct (logical o) eqn:LO.
  - split; [|unfold operand; rewrite LO; discriminate]. intros k. specialize (EA k). specialize (EB (k + xparams a)). up 185%N; [apply xright_12|].
    destruct o; try discriminate LO; cbn [left_level right_level blevel] in CA, CB; cbn [xleft xright blevel xtok btok xobj xparams xstack];
      [rl 217%N (Nat.min 2 (xright b)) (Nat.min 2 (xleft a)) (EA, (EB, tt))|rl 218%N (Nat.min 1 (xright b)) (Nat.min 1 (xleft a)) (EA, (EB, tt))].
  - cbn [orb] in OP. apply andb_true_iff in OP as [OA OB]. destruct (HA OA) as [A RA], (HB OB) as [B RB]. clear HA HB EA EB.
    apply operand_ok; [|cbn [xright]; destruct o; try discriminate LO; cbn [blevel]; lia]. intros k. specialize (A k). specialize (B (k + xparams a)). up 192%N; [apply xright_12|].
    destruct o; try discriminate LO; cbn [left_level right_level blevel] in CA, CB; cbn [xleft xright blevel xtok btok xobj bobj xparams xstack].
    + rl 207%N (Nat.min 8 (xright b)) (Nat.min 8 (xleft a)) (A, (B, tt)).
    + rl 208%N (Nat.min 8 (xright b)) (Nat.min 8 (xleft a)) (A, (B, tt)).
    + rl 209%N (Nat.min 9 (xright b)) (Nat.min 9 (xleft a)) (A, (B, tt)).
    + rl 210%N (Nat.min 9 (xright b)) (Nat.min 9 (xleft a)) (A, (B, tt)).
    + rl 211%N (Nat.min 9 (xright b)) (Nat.min 9 (xleft a)) (A, (B, tt)).
    + rl 212%N (Nat.min 10 (xright b)) (Nat.min 10 (xleft a)) (A, (B, tt)).
    + rl 216%N (Nat.min 11 (xright b)) (Nat.min 11 (xleft a)) (A, (B, tt)).
    + rl 213%N (Nat.min 5 (xright b)) (Nat.min 5 (xleft a)) (A, (B, tt)).
    + rl 214%N (Nat.min 4 (xright b)) (Nat.min 4 (xleft a)) (A, (B, tt)).
    + rl 215%N (Nat.min 5 (xright b)) (Nat.min 5 (xleft a)) (A, (B, tt)).
    + up 206%N. rl 231%N (Nat.min 5 (xright b)) (Nat.min 5 (xleft a)) (A, (B, tt)).
    + up 206%N. rl 232%N (Nat.min 5 (xright b)) (Nat.min 5 (xleft a)) (A, (B, tt)).
    + up 206%N. rl 233%N (Nat.min 5 (xright b)) (Nat.min 5 (xleft a)) (A, (B, tt)).
    + up 206%N. rl 234%N (Nat.min 6 (xright b)) (Nat.min 6 (xleft a)) (A, (B, tt)).
    + up 206%N. rl 235%N (Nat.min 6 (xright b)) (Nat.min 6 (xleft a)) (A, (B, tt)).
    + up 206%N. rl 236%N (Nat.min 6 (xright b)) (Nat.min 6 (xleft a)) (A, (B, tt)).
    + up 206%N. rl 237%N (Nat.min 6 (xright b)) (Nat.min 6 (xleft a)) (A, (B, tt)).
Qed.
