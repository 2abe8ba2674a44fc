(** Every expression which [fits] is said by the grammar symbol expr (conclusion); no code of /repo. *)
From Verif Require Export ExprProof.
From Coq Require Import ZifyBool ZifyNat ZifyN.
Local Open Scope nat_scope.
Set Implicit Arguments.
Unset Strict Implicit.

Lemma in_ok n e l : ex_ok e -> operand e = true -> implb n (5 <=? xright e) = true -> l <> [] -> (forall x, In x l -> ex_ok x) -> ex_ok (XIn n e l).
Proof.
  intros [_ H] O C N A. destruct (H O) as [H1 R]. clear H. split; [|discriminate]. intros k. specialize (H1 k). pose proof (list_ok N A (k + xparams e)) as LO. pose proof (said_pos LO). up 187%N; [cbn; lia|].
  pose proof (xleft_12 e). cbn [xleft xright xtok xobj xparams xstack]. destruct n; cbn [implb] in C; cbn [not_tok].
  - apply Nat.leb_le in C. rl 220%N 12 (Nat.min 4 (xleft e)) (H1, (LO, tt)).
  - rl 219%N 12 (xleft e) (H1, (LO, tt)).
Qed.
Lemma inq_ok n e q : ex_ok e -> operand e = true -> implb n (5 <=? xright e) = true -> part_ok (KQuery, q) -> ex_ok (XInQ n e q).
Proof.
  intros [_ H] O C A. destruct (H O) as [H1 R]. clear H. split; [|discriminate]. intros k. specialize (H1 k). pose proof (proj2 (A (k + xparams e))) as LO. cbn [kind_sym kind_level] in LO. pose proof (said_pos LO). up 187%N; [cbn; lia|].
  pose proof (xleft_12 e). cbn [xleft xright xtok xobj xparams xstack]. destruct n; cbn [implb] in C; cbn [not_tok].
  - apply Nat.leb_le in C. rl 222%N 12 (Nat.min 4 (xleft e)) (H1, (LO, tt)).
  - rl 221%N 12 (xleft e) (H1, (LO, tt)).
Qed.
Lemma between_ok e a b : ex_ok e -> ex_ok a -> ex_ok b -> operand e = true -> operand a = true -> operand b = true -> ex_ok (XBetween e a b).
Proof.
  intros [_ HE] [_ HA] [_ HB] OE OA OB. destruct (HE OE) as [E RE], (HA OA) as [A RA], (HB OB) as [B RB]. clear HE HA HB. split; [|discriminate]. intros k. specialize (E k). specialize (A (k + xparams e)). specialize (B (k + xparams e + xparams a)).
  up 184%N; [apply xright_12|]. pose proof (xleft_12 e). pose proof (xright_12 b). cbn [xleft xright xtok xobj xparams xstack]. rl 275%N (xright b) (xleft e) (E, (A, (B, tt))).
Qed.
Lemma query_ok q : part_ok (KQuery, q) -> ex_ok (XQ q).
Proof. intros A. apply operand_ok; [|cbn; lia]. intros k. specialize (A k). destruct A as [_ A]. cbn [kind_sym kind_level] in A. pose proof (said_pos A). cbn [xleft xright xtok xobj xparams xstack]. rl 198%N 12 12 (A, tt). Qed.
Lemma exists_ok n q : part_ok (KQuery, q) -> ex_ok (XExists n q).
Proof.
  intros A. split; [|discriminate]. intros k. specialize (A k). destruct A as [_ A]. cbn [kind_sym kind_level] in A. pose proof (said_pos A). cbn [xleft xright xtok xobj xparams xstack]. up 186%N. destruct n; cbn [not_tok].
  - rl 230%N 12 12 (A, tt).
  - rl 229%N 12 12 (A, tt).
Qed.
Lemma function_ok sc n d l ov : implb d (match l with [] => false | _ => true end) = true -> (forall x, In x l -> ex_ok x) -> match ov with Some p => part_ok (KWindow, p) | None => True end -> ex_ok (XFun sc n d l ov).
Proof.
  intros D A W. apply operand_ok; [|cbn; lia]. intros k. up 194%N; [apply xright_12|].
  set (kl := k + list_sum (map xparams l)). set (wv := match ov with Some p => q_obj p kl | None => VNull end). set (wp := match ov with Some p => q_params p | None => 0 end).
  set (ws := match ov with Some p => q_stack p | None => 1 end).
  assert (O : said S_opt_window (opt q_tok ov) kl wv (kl + wp) 12 12 ws).
  { unfold wv, wp, ws. destruct ov as [p|]; cbn [opt]; [apply (W kl)|]. eapply said_eq; [apply (@said_none 243%N); reflexivity|..]; try reflexivity; lia. }
  pose proof (said_pos O). assert (PE : k + xparams (XFun sc n d l ov) = kl + wp) by (cbn [xparams]; unfold kl, wp; destruct ov; lia). rewrite PE. clear PE.
  change (xobj (XFun sc n d l ov) k) with (func (match sc with Some s => str s | None => VNull end) (str n) (vec (numbered_list xobj xparams l k)) (VBool d) wv).
  assert (ST : xstack (XFun sc n d l ov) = stack ([1; 1; 1] ++ (match sc with Some _ => [1; 1] | None => [] end) ++ [exprs_stack (map xstack l); 1; ws])) by (destruct sc; reflexivity). rewrite ST. clear ST.
  cbn [xleft xright xtok]. destruct l as [|x l].
  - destruct d; [discriminate|]. subst kl. change (list_sum (map xparams [])) with 0 in *. rewrite Nat.add_0_r in *. cbn [map commas numbered_list app].
    destruct sc as [s|]; [rl 240%N 12 12 (@said_id s, (@said_id n, (O, tt)))|rl 238%N 12 12 (@said_id n, (O, tt))].
  - assert (NE : x :: l <> []) by discriminate. pose proof (list_ok NE A k) as LO. clear NE. fold kl in LO. remember (x :: l) as xl eqn:EX. clear EX x l. pose proof (said_pos LO).
    assert (DI : said S_opt_distinct (if d then [K TOK_DISTINCT] else []) k (VBool d) k 12 12 1) by (destruct d; [rl 141%N 12 12 tt|none 142%N]).
    destruct sc as [s|]; [rl 241%N 12 12 (@said_id s, (@said_id n, (DI, (LO, (O, tt)))))|rl 239%N 12 12 (@said_id n, (DI, (LO, (O, tt))))].
Qed.
Lemma case_ok w t m els : ex_ok w -> ex_ok t -> (forall p, In p m -> ex_ok (fst p) /\ ex_ok (snd p)) -> (forall x, In x els -> ex_ok x) -> List.length els <= 1 -> ex_ok (XCase w t m els).
Proof.
  intros W T M E LE. apply operand_ok; [|cbn; lia]. intros k. up 193%N; [apply xright_12|]. pose proof (whens_ok W T M k) as WO. pose proof (said_pos WO). set (kw := k + whens_par ((w, t) :: m)) in *.
  assert (KW : forall n, k + (xparams w + xparams t) + list_sum (map (fun p => xparams (fst p) + xparams (snd p)) m) + n = kw + n).
  { intros n. unfold kw, whens_par. cbn [map list_sum fold_right fst snd]. unfold list_sum. lia. }
  assert (TT : xtok (XCase w t m els) = [K TOK_CASE] ++ whens_tok ((w, t) :: m) ++ flat_map (fun e => [K TOK_ELSE] ++ xtok e) els ++ [K TOK_END]).
  { cbn [xtok]. unfold whens_tok. cbn [flat_map fst snd]. rewrite <- !app_assoc. reflexivity. }
  rewrite TT. clear TT. cbn [xleft xright]. destruct els as [|x [|? ?]]; [| |cbn in LE; lia].
  - cbn [flat_map app]. rl 225%N 12 12 (WO, tt).
    + cbn [xparams map list_sum fold_right]. pose proof (KW 0). unfold list_sum in *. lia.
    + change (xstack (XCase w t m [])) with (stack [1; whens_stack w t m; 1; 1; 1]). cbn [stack stack_from]. lia.
  - pose proof (proj1 (E x (or_introl eq_refl)) kw) as EX. pose proof (said_pos EX). cbn [flat_map app]. rewrite app_nil_r. rl 226%N 12 12 (WO, (EX, tt)).
    + cbn [xobj]. cbv zeta. cbn [numbered_list hd]. pose proof (KW 0) as KW0. rewrite !Nat.add_0_r in KW0. replace (k + (xparams w + xparams t) + list_sum (map (fun p => xparams (fst p) + xparams (snd p)) m)) with kw by congruence. reflexivity.
    + cbn [xparams map list_sum fold_right]. pose proof (KW (xparams x)). unfold list_sum in *. lia.
    + change (xstack (XCase w t m [x])) with (stack [1; whens_stack w t m; 1; Nat.max (xstack x) 1; 1]). cbn [stack stack_from]. lia.
Qed.
Lemma case_of_ok x w t m els : ex_ok x -> ex_ok w -> ex_ok t -> (forall p, In p m -> ex_ok (fst p) /\ ex_ok (snd p)) -> (forall x, In x els -> ex_ok x) -> List.length els <= 1 -> ex_ok (XCaseOf x w t m els).
Proof.
  intros X W T M E LE. apply operand_ok; [|cbn; lia]. intros k. up 193%N; [apply xright_12|]. pose proof (proj1 X k) as XO. pose proof (said_pos XO). set (k0 := k + xparams x) in *.
  pose proof (whens_ok W T M k0) as WO. pose proof (said_pos WO). set (kw := k0 + whens_par ((w, t) :: m)) in *.
  assert (KW : forall n, k0 + (xparams w + xparams t) + list_sum (map (fun p => xparams (fst p) + xparams (snd p)) m) + n = kw + n).
  { intros n. unfold kw, whens_par. cbn [map list_sum fold_right fst snd]. unfold list_sum. lia. }
  assert (TT : xtok (XCaseOf x w t m els) = [K TOK_CASE] ++ xtok x ++ whens_tok ((w, t) :: m) ++ flat_map (fun e => [K TOK_ELSE] ++ xtok e) els ++ [K TOK_END]).
  { cbn [xtok]. unfold whens_tok. cbn [flat_map fst snd]. rewrite <- !app_assoc. reflexivity. }
  rewrite TT. clear TT. cbn [xleft xright]. assert (WT : whens_tok ((w, t) :: m) = K TOK_WHEN :: (xtok w ++ [K TOK_THEN] ++ xtok t ++ whens_tok m)) by (unfold whens_tok; cbn [flat_map fst snd]; unfold when_; rewrite <- !app_assoc; reflexivity).
  destruct els as [|y [|? ?]]; [| |cbn in LE; lia].
  - cbn [flat_map app]. rl 223%N 12 12 (XO, (WO, tt)).
    + cbn [xparams map list_sum fold_right]. pose proof (KW 0). unfold list_sum, k0 in *. lia.
    + change (xstack (XCaseOf x w t m [])) with (stack [1; xstack x; whens_stack w t m; 1; 1; 1]). cbn [stack stack_from]. lia.
  - pose proof (proj1 (E y (or_introl eq_refl)) kw) as EX. pose proof (said_pos EX). cbn [flat_map app]. rewrite app_nil_r. rl 224%N 12 12 (XO, (WO, (EX, tt))).
    + cbn [xobj]. cbv zeta. cbn [numbered_list hd]. fold k0. pose proof (KW 0) as KW0. rewrite !Nat.add_0_r in KW0. replace (k0 + (xparams w + xparams t) + list_sum (map (fun p => xparams (fst p) + xparams (snd p)) m)) with kw by congruence. reflexivity.
    + cbn [xparams map list_sum fold_right]. pose proof (KW (xparams y)). unfold list_sum, k0 in *. lia.
    + change (xstack (XCaseOf x w t m [y])) with (stack [1; xstack x; whens_stack w t m; 1; Nat.max (xstack y) 1; 1]). cbn [stack stack_from]. lia.
Qed.
Lemma parts_all (l : list ex) (P : ex -> Prop) : forallb fits l = true -> Forall part_ok (flat_map xparts l) -> (forall x, In x l -> fits x = true -> Forall part_ok (xparts x) -> P x) -> forall x, In x l -> P x.
Proof. intros F Q H x I. rewrite forallb_forall in F. apply H; auto. exact (forall_flat Q I). Qed.
(** The main theorem. *)
Theorem expr_ok e : fits e = true -> Forall part_ok (xparts e) -> ex_ok e.
Proof.
  induction e using ex_ind2; start; try (cbn in F; discriminate F).
  - apply operand_ok; [|cbn; lia]. intros k. cbn [xright xleft]. up 190%N. up 199%N. rl 276%N 12 12 (@said_id n, tt).
  - apply operand_ok; [|cbn; lia]. intros k. cbn [xright xleft]. up 190%N. up 199%N. rl 277%N 12 12 (@said_id t, (@said_id n, tt)).
  - apply operand_ok; [|cbn; lia]. intros k. cbn [xright xleft]. up 190%N. up 199%N. rl 278%N 12 12 tt.
  - apply operand_ok; [|cbn; lia]. intros k. cbn [xright xleft]. up 190%N. up 199%N. rl 279%N 12 12 (@said_id t, tt).
  - apply operand_ok; [|cbn; lia]. intros k. cbn [xright xleft]. apply literal_ok. up 282%N. up 291%N. eapply said_eq; [apply int_ok|..]; try reflexivity. cbn; lia.
  - apply operand_ok; [|cbn; lia]. intros k. cbn [xright xleft]. apply literal_ok. up 282%N. rl 290%N 12 12 (@said_float f, tt).
  - apply operand_ok; [|cbn; lia]. intros k. cbn [xright xleft]. apply literal_ok. up 280%N. rl 287%N 12 12 (@said_string s, tt).
  - apply operand_ok; [|cbn; lia]. intros k. cbn [xright xleft]. apply literal_ok. up 281%N. destruct b; [rl 288%N 12 12 tt|rl 289%N 12 12 tt].
  - apply operand_ok; [|cbn; lia]. intros k. cbn [xright xleft]. apply literal_ok. up 283%N. rl 293%N 12 12 tt.
  - apply operand_ok; [|cbn; lia]. intros k. cbn [xright xleft]. apply literal_ok. up 284%N.
    eapply said_eq; [eapply (@said_rule 294%N 12 12); [reflexivity|sq (@said_string s, tt)|cbn [asem nth Nat.pred text tok_val str]; rewrite F; reflexivity|reflexivity|lev|edg]|..]; try reflexivity; try (cbn; lia).
  - apply operand_ok; [|cbn; lia]. intros k. cbn [xright xleft]. apply literal_ok. up 285%N. eapply said_eq; [apply interval_ok|..]; try reflexivity. cbn; lia.
  - apply operand_ok; [|cbn; lia]. intros k. cbn [xright xleft]. apply literal_ok. up 285%N. cbn [fits] in F. cbn [xobj]. destruct u as [u|]; cbn [interval_text] in F |- *.
    + destruct (scan_interval1 s) as [|d w|] eqn:SC; try discriminate F.
      eapply said_eq; [eapply (@said_rule 296%N 12 12); [reflexivity|sq (@said_string s, (unit_ok u, tt))|cbn [asem nth Nat.pred text tok_val str]; rewrite SC; reflexivity|reflexivity|lev|edg]|..]; try reflexivity; try (cbn; lia).
    + destruct (scan_interval2 s) as [|d w|] eqn:SC; try discriminate F. destruct (unit_of w) as [f|] eqn:UO; [|discriminate F].
      eapply said_eq; [eapply (@said_rule 297%N 12 12); [reflexivity|sq (@said_string s, tt)|cbn [asem nth Nat.pred text tok_val str]; rewrite SC, UO; reflexivity|reflexivity|lev|edg]|..]; try reflexivity; try (cbn; lia).
  - apply operand_ok; [|cbn; lia]. intros k. cbn [xright xleft]. apply literal_ok. up 286%N. eapply said_eq; [apply said_param|..]; try reflexivity. cbn; lia.
  - specialize (IHe F Q). apply operand_ok; [|cbn; lia]. intros k. cbn [xright xleft xtok xobj xparams xstack]. pose proof (proj1 IHe k) as A. pose proof (said_pos A). rl 188%N 12 12 (A, tt).
  - apply unary_ok; auto. destruct o; now apply Nat.leb_le.
  - destruct Q. apply binary_ok; auto; now apply Nat.leb_le.
  - destruct Q. apply in_ok; auto; [destruct l; discriminate|]. eapply parts_all; eassumption.
  - destruct Q as [Q1 Q2]. apply inq_ok; auto. now inversion Q2.
  - destruct Q as (Q1 & Q2 & Q3). apply between_ok; auto.
  - destruct Q as (Q1 & Q2). apply function_ok; auto; [eapply parts_all; eassumption|]. destruct o; [now inversion Q2|exact I].
  - specialize (IHe F Q). apply operand_ok; [|cbn; lia]. intros k. up 196%N; [apply xright_12|]. pose proof (proj1 IHe k) as A. pose proof (said_pos A). cbn [xright xleft xtok xobj xparams xstack]. rl 258%N 12 12 (A, (@ctype_ok t, tt)).
  - specialize (IHe F Q). apply operand_ok; [|cbn; lia]. intros k. up 195%N; [apply xright_12|]. pose proof (proj1 IHe k) as A. pose proof (said_pos A). cbn [xright xleft xtok xobj xparams xstack]. rl 257%N 12 12 (@unit_ok u, (A, tt)).
  - destruct Q as (Q1 & Q2 & Q3 & Q4). apply case_ok; auto; [|eapply parts_all; eassumption|now apply Nat.leb_le].
    intros p I. rewrite forallb_forall in *. match goal with H : forall x, In x m -> (_ && _)%bool = true |- _ => specialize (H p I); apply andb_true_iff in H as [? ?] end.
    apply (forall_flat Q3) in I as I2. apply Forall_app in I2 as [? ?]. match goal with H : forall p, In p m -> _ /\ _ |- _ => destruct (H p I) end. split; auto.
  - destruct Q as (Q0 & Q1 & Q2 & Q3 & Q4). apply case_of_ok; auto; [|eapply parts_all; eassumption|now apply Nat.leb_le].
    intros p I. rewrite forallb_forall in *. match goal with H : forall x, In x m -> (_ && _)%bool = true |- _ => specialize (H p I); apply andb_true_iff in H as [? ?] end.
    apply (forall_flat Q3) in I as I2. apply Forall_app in I2 as [? ?]. match goal with H : forall p, In p m -> _ /\ _ |- _ => destruct (H p I) end. split; auto.
  - assert (NE : l <> []) by (destruct l; discriminate). assert (A : forall x, In x l -> ex_ok x) by (eapply parts_all; eassumption). apply operand_ok; [|cbn; lia]. intros k. up 197%N; [apply xright_12|].
    pose proof (list_ok NE A k) as LO. pose proof (said_pos LO). cbn [xright xleft xtok xobj xparams xstack]. rl 273%N 12 12 (LO, tt).
  - destruct IHe as [_ IH]; auto. destruct IH as [A R]; auto. apply operand_ok; [|cbn; lia]. intros k. up 189%N; [apply xright_12|]. specialize (A k). pose proof (said_pos A). pose proof (xleft_12 e). cbn [xright xleft xtok xobj xparams xstack].
    match goal with H : (12 <=? _) = true |- _ => apply Nat.leb_le in H end. rl 274%N 12 (xleft e) (A, (@int_ok z, tt)).
  - apply query_ok. now inversion Q.
  - apply exists_ok. now inversion Q.
Qed.
