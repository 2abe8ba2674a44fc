(** The grammar actions that need more than [plain_tac].  No code of /repo. *)
From Verif Require Export ActTac.
From Coq Require Import ZifyBool ZifyNat ZifyN.
Local Open Scope nat_scope.
Set Implicit Arguments.
Unset Strict Implicit.

(** ** Actions with a semantic check *)
Definition failed (e : env) (F : N -> nat) (e' : env) : Prop :=
  exists e1 m, heap e1 F /\ same e e1 /\ yyerror m e1 = ROk tt e'.
Definition plain_post (r lhs : N) (args : list val) (e : env) (F : N -> nat) (v : val) (e' : env) : Prop :=
  wt v (symty lhs) /\ heap e' (fun x => ca x v + F x) /\ same e e' /\ (forall q, cp q v = cps q args) /\
  forall k, asem r k (map erase args) = Some (erase v).
Definition checked (r lhs : N) (rhs : list N) : Prop :=
  forall args e F, typed args rhs -> heap e (fun x => cas x args + F x) ->
  match act r args e with
  | ROk v e' => plain_post r lhs args e F v e'
  | RErr e' => failed e F e' /\ forall k, asem r k (map erase args) = None
  | RUB u => act_ub r args u
  end.
Lemma yyerror_eq m e F : heap e F -> exists e', yyerror m e = ROk tt e' /\ 
  heap e' (fun x => ca x (e_msg e') + F x) /\ reported e e' /\ rest_eq e e'.
Proof.
  intro H. destruct (alloc_spec H) as (_ & e' & E & H' & S). unfold yyerror, yyerror_at, snew, bind. rewrite E. unfold ret.
  eexists. split; [reflexivity|]. destruct S as ((S1 & S2 & S3 & S4 & S5) & S6). repeat split; cbn; auto.
  - apply H'.
  - apply H'.
  - apply H'.
  - eauto.
Qed.
Lemma act_ok_plain r lhs args e f v e' : ordinary r = true -> msg_ok (e_msg e) ->
  plain_post r lhs args e (fun x => ca x (e_msg e) + f x) v e' -> act_ok r lhs args e f v e'.
Proof.
  intros O MO (W & H' & S & C & D).
  destruct S as ((S1 & S2 & S3 & S4 & S5) & S6). pose proof S6 as (S7 & S8 & S9 & S10).
  assert (N298 : N.eqb r 298 = false).
  { unfold ordinary in O. cbn [existsb] in O. rewrite !orb_false_r in O. apply negb_true_iff in O.
    repeat (apply orb_false_iff in O as [? O]; try assumption). }
  constructor; auto.
  + exists (fun _ => 0). split; [|intros _; rewrite (ordinary_leaks _ O); exact lost_blocks_none]. eapply heap_ext; [exact H'|]. intro x. cbn. rewrite S8. lia.
  + rewrite S8. exact MO.
  + rewrite S5. unfold lpos_after, ordinary in *. cbn [existsb] in O.
    destruct (N.eq_dec r 3) as [->|]; [discriminate O|]. destruct (N.eq_dec r 4) as [->|]; [discriminate O|].
    destruct r as [|p]; [reflexivity|]. repeat (destruct p as [p|p|]; try reflexivity; try congruence).
  + exists []. rewrite app_nil_r, N298. auto.
  + intro q. unfold listed. rewrite S3, C. reflexivity.
  + congruence.
Qed.
Lemma reported_same e e1 e' : same e e1 -> reported e1 e' -> reported e e'.
Proof. intros ((_ & _ & _ & L & _) & _) (V & A & B & C). rewrite L in B, C. repeat split; auto. Qed.
Lemma act_err_failed r args e f e' : failed e (fun x => ca x (e_msg e) + f x) e' ->
  (forall k, asem r k (map erase args) = None) -> act_err r args e f e'.
Proof.
  intros (e1 & m & H & S & Y) A. destruct (yyerror_eq m H) as (e2 & Y' & H2 & R & RE).
  rewrite Y in Y'. injection Y' as <-. destruct RE as (R1 & R2 & R3 & R4 & R5). pose proof S as ((S1 & S2 & S3 & S4 & S5) & S6).
  constructor.
  - exists (fun x => ca x (e_msg e)). split; [hp H2|]. intros _ E x. rewrite E. reflexivity.
  - right. split; [eapply reported_same; eassumption|auto].
  - congruence.
  - congruence.
  - congruence.
Qed.
Lemma checked_spec r lhs rhs : ordinary r = true -> checked r lhs rhs -> act_spec r lhs rhs.
Proof.
  intros O P args e f T MO H. specialize (P args e (fun x => ca x (e_msg e) + f x) T).
  assert (H0 : heap e (fun x => cas x args + (ca x (e_msg e) + f x))) by hp H. specialize (P H0).
  destruct (act r args e) as [v e'|e'|u].
  - apply act_ok_plain; assumption.
  - destruct P. apply act_err_failed; assumption.
  - exact P.
Qed.
(** In weakest-precondition form. *)
Definition checked_wp (r lhs : N) (rhs : list N) : Prop :=
  forall args e F, typed args rhs -> heap e (fun x => cas x args + F x) ->
  wp (act r args) e (plain_post r lhs args e F) (fun e' => failed e F e' /\ forall k, asem r k (map erase args) = None).
Lemma checked_wp_spec r lhs rhs : ordinary r = true -> checked_wp r lhs rhs -> act_spec r lhs rhs.
Proof.
  intros O P. apply checked_spec; [exact O|]. intros args e F T H. specialize (P args e F T H). unfold wp in P.
  destruct (act r args e); auto. destruct P.
Qed.
Lemma of_wp A (m : M A) e (Q : A -> env -> Prop) (R : env -> Prop) (U : ub -> Prop) : wp m e Q R ->
  match m e with ROk v e' => Q v e' | RErr e' => R e' | RUB u => U u end.
Proof. unfold wp. destruct (m e); auto. intros []. Qed.
Lemma wp_yyerror A m e F e0 (Q : A -> env -> Prop) (P : Prop) : heap e F -> same e0 e -> P ->
  wp (bind (yyerror m) (fun _ => YYERROR)) e Q (fun e' => failed e0 F e' /\ P).
Proof.
  intros H S HP. destruct (yyerror_eq m H) as (e2 & Y' & H2 & R & RE). unfold wp, bind. rewrite Y'. unfold YYERROR.
  split; [|exact HP]. exists e, m. auto.
Qed.
Ltac cstart := apply checked_wp_spec; [reflexivity|]; let T := fresh "T" in intros args e F T H; inv_typed T; 
  pose proof (same_refl e) as S0; open_act.
Ltac cfin := unfold plain_post; fin.
(** The error branch. *)
Ltac efin := match goal with H : heap ?e ?F |- wp _ ?e _ (fun e' => failed ?e0 ?G e' /\ _) =>
  let H1 := fresh in assert (H1 : heap e G) by hp H; refine (@wp_yyerror _ _ _ _ _ _ _ H1 _ _); [assumption|intro] end.
(** Decide a condition. *)
Ltac wif := match goal with |- context [if ?b then _ else _] => destruct b eqn:?; cbn beta iota end.

(** Compare known enumerators. *)
Ltac enums :=
  repeat match goal with |- context [enum_is (VEnum ?a ?b) ?c] =>
    let t := eval vm_compute in (enum_is (VEnum a b) c) in
    lazymatch t with true => idtac | false => idtac end; change (enum_is (VEnum a b) c) with t end; cbn beta iota zeta.
(** Compute the specification. *)
Ltac asem_tac :=
  lazymatch goal with |- asem ?r ?k ?args = _ =>
    let t := eval lazy beta iota zeta delta [asem map nth Nat.pred file_type null_ordering] in (asem r k args) in
    change (asem r k args) with t end;
  cbn [text num erase]; unfold is_enum;
  repeat match goal with
         | E : ?b = true |- context [?b] => rewrite E
         | E : ?b = false |- context [?b] => rewrite E
         end; cbn [orb andb]; try reflexivity.
Lemma erase_enums l e k : wtl l (TEnum e k) -> map erase l = l.
Proof.
  induction l as [|v l IH]; intro W; [reflexivity|]. apply wtl_cons_inv in W as [WV W]. apply wt_enum_inv in WV as (n & -> & _).
  cbn [map]. rewrite (IH W). reflexivity.
Qed.
Lemma add_enum_ok l e k n : wtl l (TEnum e k) ->
  add_enum (VVec 0 (map erase l)) (VEnum e n) =
  VVec 0 (map erase (if existsb (enum_is (VEnum e n)) l then l else l ++ [VEnum e n])).
Proof.
  intro W. unfold add_enum, mem_enum, is_enum, snoc. cbn [elems]. rewrite (erase_enums W).
  change (fun y => enum_is (VEnum e n) y) with (enum_is (VEnum e n)).
  destruct (existsb (enum_is (VEnum e n)) l); rewrite ?map_app, (erase_enums W); reflexivity.
Qed.
Lemma act_93 : act_spec 93 S_column_constraints [S_column_constraints; S_column_constraint].
Proof.
  start; steps. pose proof (add_enum_ok n W1) as A. destruct (existsb (enum_is (VEnum EConstraintType n)) l) eqn:E; fin.
  - cbn -[add_enum]. rewrite A. reflexivity.
  - cbn -[add_enum]. rewrite A. reflexivity.
Qed.
Lemma act_95 : act_spec 95 S_column_constraints [S_column_constraints; S_references_spec].
Proof.
  start; steps. pose proof (add_enum_ok 0%N W1) as A. destruct (existsb (enum_is (VEnum EConstraintType 0)) l) eqn:E; fin.
  - cbn -[add_enum]. change ForeignKey with (VEnum EConstraintType 0). rewrite A. unfold snoc. cbn. rewrite map_app. reflexivity.
  - cbn -[add_enum]. change ForeignKey with (VEnum EConstraintType 0). rewrite A. unfold snoc. cbn. rewrite !map_app. reflexivity.
Qed.
Lemma act_132 : act_spec 132 S_select_no_paren [S_select_clause; S_opt_order; S_opt_limit; S_opt_locking_clause].
Proof.
  start; steps; try fin.
  all: inv_opt W7; try match goal with W : wt _ (TObj [XInt]) |- _ => inv_obj W end; fin.
Qed.
Lemma act_47 : act_spec 47 S_import_export_options [S_csv_option].
Proof.
  start; steps. cbn [In] in W0. destruct W0 as [<-|[<-|[<-|[]]]]; enums; steps; fin.
Qed.
Lemma act_44 : act_spec 44 S_import_export_options [S_import_export_options; S_comma; S_ENCODING; S_STRING].
Proof.
  cstart; steps; cbn [negb].
  - steps; cfin.
  - steps. efin. reflexivity.
Qed.
Lemma act_37 : act_spec 37 S_file_type [S_IDENTIFIER].
Proof.
  cstart; steps. repeat wif; steps; first [cfin; asem_tac | efin; asem_tac].
Qed.
Lemma act_42 : act_spec 42 S_import_export_options [S_import_export_options; S_comma; S_FORMAT; S_file_type].
Proof.
  cstart; steps. cbn [In] in W0, W1.
  destruct W0 as [<-|[<-|[<-|[]]]]; destruct W1 as [<-|[<-|[<-|[<-|[]]]]]; enums; cbn [negb]; steps; enums; cbn [negb andb]; steps;
    first [cfin | efin; reflexivity].
Qed.
Lemma act_48 : act_spec 48 S_csv_option [S_IDENTIFIER; S_STRING].
Proof.
  cstart; steps. repeat wif; steps; first [cfin; asem_tac | efin; asem_tac].
Qed.
Lemma act_162 : act_spec 162 S_opt_null_ordering [S_IDENTIFIER; S_IDENTIFIER].
Proof.
  cstart; steps. destruct (casecmp s (la "nulls")) eqn:?, (casecmp s0 (la "first")) eqn:?, (casecmp s0 (la "last")) eqn:?;
    enums; steps; first [cfin; asem_tac | efin; asem_tac].
Qed.
Lemma act_294 : act_spec 294 S_date_literal [S_DATE; S_STRING].
Proof.
  cstart; steps. wif; steps; first [cfin; asem_tac | efin; asem_tac].
Qed.
Lemma act_179 : act_spec 179 S_extended_literal [S_literal].
Proof.
  cstart; steps; enums; steps; first [cfin | efin; reflexivity].
Qed.
Lemma act_46 : act_spec 46 S_import_export_options [S_import_export_options; S_comma; S_csv_option].
Proof.
  cstart; steps. inv_obj W0.
  match goal with W : In _ [0%N; 1%N; 2%N; 3%N], W' : In _ [0%N; 1%N; 2%N] |- _ => cbn [In] in W, W';
    destruct W as [<-|[<-|[<-|[<-|[]]]]]; destruct W' as [<-|[<-|[<-|[]]]] end; enums; cbn [negb andb]; cbn beta iota; steps; enums; steps;
    first [cfin | efin; reflexivity].
Qed.
Lemma act_296 : act_spec 296 S_interval_literal [S_INTERVAL; S_STRING; S_datetime_field].
Proof.
  apply checked_spec; [reflexivity|]. intros args e F T H. inv_typed T. inv_str W. destruct (scan_interval1 s) as [|d u|] eqn:E.
  3: { open_act. unfold bind at 1. unfold cstr. unfold bind. erewrite check_spec; [|exact H|own]. unfold ret. rewrite E.
       split; [reflexivity|]. exists a, s. cbn. auto. }
  all: refine (@of_wp _ _ _ _ _ _ _).
  all: pose proof (same_refl e) as S0; open_act; steps; rewrite E; steps.
  - efin. asem_tac. rewrite E. reflexivity.
  - cfin. asem_tac. rewrite E. reflexivity.
Qed.
Lemma unit_enum u f : unit_of u = Some f -> exists n, f = VEnum EDatetimeField n /\ In n [1;2;3;4;5;6]%N.
Proof.
  unfold unit_of. repeat match goal with |- context [if ?b then _ else _] => destruct b end; intro E; inversion E;
    eexists; (split; [reflexivity|]); cbn; tauto.
Qed.
Lemma act_297 : act_spec 297 S_interval_literal [S_INTERVAL; S_STRING].
Proof.
  apply checked_spec; [reflexivity|]. intros args e F T H. inv_typed T. inv_str W. destruct (scan_interval2 s) as [|d u|] eqn:E.
  3: { open_act. unfold bind at 1. unfold cstr. unfold bind. erewrite check_spec; [|exact H|own]. unfold ret. rewrite E.
       split; [reflexivity|]. exists a, s. cbn. auto. }
  all: refine (@of_wp _ _ _ _ _ _ _).
  all: pose proof (same_refl e) as S0; open_act; steps; rewrite E; steps.
  - efin. asem_tac. rewrite E. reflexivity.
  - destruct (unit_of u) as [f|] eqn:U; steps.
    + destruct (unit_enum U) as (n & -> & IN). cfin. asem_tac. rewrite E, U. reflexivity.
    + efin. asem_tac. rewrite E, U. reflexivity.
Qed.
