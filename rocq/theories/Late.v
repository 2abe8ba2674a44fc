(** Which statements the parser recognises as complete before it has read the token behind them.  No code of /repo.

    The parser (yybackup, bison_parser.cpp) reads a token only in a state whose action depends on it; in the other states it reduces at once.  So
    a statement ends, for the byte count, either with its own last token or with the token behind it, and which of the two happens depends on the
    last rules used to build it.  [self_ending] says it in terms of the statement's tokens. *)
From Verif Require Export Abs Prefix.
From Coq Require Import ZifyBool ZifyNat ZifyN.
Local Open Scope nat_scope.
Set Implicit Arguments.
Unset Strict Implicit.

(** ** Specification: the statements that end with their own last token.  [g]: the grammar symbols of the tokens of the statement. *)
Definition occurs (X : N) (g : list N) : bool := existsb (N.eqb X) g.
Definition begins (X : N) (g : list N) : bool := match g with Y :: _ => N.eqb X Y | [] => false end.
Definition self_ending (g : list N) : bool :=
  occurs S_HINT g
  || match g with Y :: Z :: _ => N.eqb Y S_SHOW && N.eqb Z S_TABLES | _ => false end
  || (begins S_SHOW g || begins S_DESCRIBE g || begins S_IMPORT g) && occurs S_dot g
  || occurs S_TO g && N.eqb (last g 0%N) S_rpar.

(** ** The rules used without looking ahead *)
Definition loud_rules : list N := [21; 24; 30; 33; 41; 61; 86; 89; 90; 91; 109; 118; 122; 123; 128; 139; 142; 143; 145; 147; 148; 150; 151; 152; 153; 154; 160; 161; 164; 165; 166; 167; 168; 169; 170; 173; 174; 183; 201; 202; 207; 208; 209; 210; 211; 212; 213; 214; 215; 216; 218; 227; 228; 231; 232; 233; 234; 235; 236; 237; 243; 244; 245; 248; 275; 276; 277; 297; 299; 300; 305; 306; 309; 312; 316; 320; 321; 322; 333; 335; 336; 345; 347; 350; 352; 353; 354; 355]%N.
(** Rules that may be used without, and those always used without. *)
Definition may_rule (r : N) : bool := negb (memN r loud_rules).
Definition must_rule (r : N) : bool := may_rule r && negb (memN r [292; 317]%N).
Fixpoint late (q : N -> bool) (t : tree) : bool :=
  match t with
  | Leaf _ => true
  | Node r us => q r && (fix go l := match l with [] => false | [u] => late q u | _ :: l' => go l' end) us
  end.
Lemma late_snoc q r us u : late q (Node r (us ++ [u])) = q r && late q u.
Proof. cbn [late]. f_equal. induction us as [|x us IH]; [reflexivity|]. cbn [app]. destruct (us ++ [u]) eqn:E; [destruct us; discriminate E|]. exact IH. Qed.
Lemma late_nil q r : late q (Node r []) = false. Proof. cbn [late]. apply andb_false_r. Qed.

Definition mute (s : Z) : bool := match decide s None with Some (DReduce _) => true | _ => false end.
Lemma mute_ok : forallb (fun s => match decide s None with Some (DReduce r) => may_rule (Z.to_N r) && match production (Z.to_N r) with Some (_, _ :: _) => true | _ => false end | _ => true end) all_states = true.
Proof. vm_compute. reflexivity. Qed.
Lemma loud_ok : forallb (fun s => if mute s then true else forallb (fun c => match decide s (Some c) with Some (DReduce r) => negb (must_rule (Z.to_N r)) | _ => true end) (zrange 199 0)) all_states = true.
Proof. vm_compute. reflexivity. Qed.
Lemma mute_none s r : (0 <= s < 656)%Z -> decide s None = Some (DReduce r) -> may_rule (Z.to_N r) = true /\ exists lhs X rhs, production (Z.to_N r) = Some (lhs, X :: rhs).
Proof.
  intros R E. pose proof (proj1 (forallb_forall _ _) mute_ok s) as A. specialize (A ltac:(apply zrange_In; lia)). cbv beta in A. rewrite E in A. apply andb_prop in A as [A1 A2]. split; [exact A1|].
  destruct (production (Z.to_N r)) as [[lhs [|X rhs]]|]; try discriminate A2. eauto.
Qed.
Lemma mute_some s c r : (0 <= s < 656)%Z -> (0 <= c < 199)%Z -> decide s (Some c) = Some (DReduce r) -> mute s = true /\ decide s None = Some (DReduce r) \/ must_rule (Z.to_N r) = false.
Proof.
  intros R C E. destruct (mute s) eqn:M.
  - left. split; [reflexivity|]. unfold mute in M. unfold decide in *. destruct (get yypact s) as [p|]; [|discriminate M]. cbn [obind] in *. destruct (p =? YYPACT_NINF)%Z; [exact E|discriminate M].
  - right. pose proof (proj1 (forallb_forall _ _) loud_ok s) as A. specialize (A ltac:(apply zrange_In; lia)). cbv beta in A. rewrite M in A.
    pose proof (proj1 (forallb_forall _ _) A c) as B. specialize (B ltac:(apply zrange_In; lia)). cbv beta in B. rewrite E in B. now apply negb_true_iff in B.
Qed.

(** ** Statements *)
Lemma lacks T E : forallb (fun p => memN (fst (snd p)) E || forallb (fun X => negb (memN X (T :: E))) (snd (snd p))) grammar = true ->
  forall X t, derives X t -> memN X (T :: E) = false -> forall k, In k (yield t) -> sym_of k <> T.
Proof.
  intros C X t D. revert X t D. apply (derives_mind (fun X t _ => memN X (T :: E) = false -> forall k, In k (yield t) -> sym_of k <> T) (fun Xs us _ => forallb (fun X => negb (memN X (T :: E))) Xs = true -> forall k, In k (flat_map yield us) -> sym_of k <> T)).
  - intros k N q [<-|[]] EQ. rewrite EQ in N. cbn [memN existsb] in N. unfold memN in N. cbn [existsb] in N. rewrite N.eqb_refl in N. discriminate N.
  - intros r lhs rhs us P D IH N. pose proof (proj1 (forallb_forall _ _) C _ (production_In P)) as G. cbn [fst snd] in G. unfold memN in N. cbn [existsb] in N. apply orb_false_elim in N as [_ N]. unfold memN at 1 in G. rewrite N in G. exact (IH G).
  - intros _ k [].
  - intros Y Ys u us D IH DL IHL N k. cbn [forallb flat_map] in *. apply andb_prop in N as [N1 N2]. apply negb_true_iff in N1. rewrite in_app_iff. intros [I|I]; auto.
Qed.
Definition tops : list N := [S_statement; S_statement_list; S_input; S_accept_]%N.
Lemma no_hint X t : derives X t -> memN X (S_HINT :: S_opt_hints :: tops) = false -> forall k, In k (yield t) -> sym_of k <> S_HINT.
Proof. apply lacks. vm_compute. reflexivity. Qed.
Lemma no_to X t : derives X t -> memN X (S_TO :: S_export_statement :: tops) = false -> forall k, In k (yield t) -> sym_of k <> S_TO.
Proof. apply lacks. vm_compute. reflexivity. Qed.
Lemma no_show X t : derives X t -> memN X (S_SHOW :: S_show_statement :: tops) = false -> forall k, In k (yield t) -> sym_of k <> S_SHOW.
Proof. apply lacks. vm_compute. reflexivity. Qed.
Lemma no_describe X t : derives X t -> memN X (S_DESCRIBE :: S_show_statement :: tops) = false -> forall k, In k (yield t) -> sym_of k <> S_DESCRIBE.
Proof. apply lacks. vm_compute. reflexivity. Qed.
Lemma no_import X t : derives X t -> memN X (S_IMPORT :: S_import_statement :: tops) = false -> forall k, In k (yield t) -> sym_of k <> S_IMPORT.
Proof. apply lacks. vm_compute. reflexivity. Qed.
Lemma rules_for X t : derives X t -> (199 <= X)%N -> exists r us, t = Node r us /\ In r (map fst (filter (fun p => N.eqb (fst (snd p)) X) grammar)) /\ exists rhs, production r = Some (X, rhs) /\ derives_list rhs us.
Proof.
  intros D L. destruct D as [k|r lhs rhs us P D]; [exfalso; destruct (yytranslate_range (@code_range k)) as (z & _ & RZ & _ & EZ); rewrite sym_code in EZ; lia|]. exists r, us. split; [reflexivity|]. split; [|eauto].
  apply in_map_iff. exists (r, (lhs, rhs)). split; [reflexivity|]. apply filter_In. split; [exact (production_In P)|]. cbn [fst snd]. apply N.eqb_refl.
Qed.
Ltac by_rule D := let r := fresh "r" in let us := fresh "us" in let I := fresh "I" in let rhs := fresh "rhs" in let P := fresh "P" in let DL := fresh "DL" in
  destruct (rules_for D ltac:(vm_compute; discriminate)) as (r & us & -> & I & rhs & P & DL); clear D; vm_compute in I;
  repeat (destruct I as [<-|I]; [|]); try destruct I;
  cbv [production grammar find fst snd N.eqb Pos.eqb option_map] in P; injection P as <-;
  repeat match goal with H : derives_list (_ :: _) _ |- _ => inversion H; clear H; subst | H : derives_list [] _ |- _ => inversion H; clear H; subst end;
  repeat match goal with H : derives ?X ?t |- _ => is_var t; let k := fresh "k" in let E := fresh "E" in destruct (derives_terminal H) as (k & -> & E); [reflexivity|clear H] end.
Lemma occurs_no X g : (forall Y, In Y g -> Y <> X) -> occurs X g = false.
Proof. intro H. unfold occurs. induction g as [|Y g IH]; [reflexivity|]. cbn [existsb]. rewrite IH by (intros Z I; apply H; now right). destruct (N.eqb_spec X Y) as [->|]; [|reflexivity]. exfalso. exact (H Y (or_introl eq_refl) eq_refl). Qed.
Lemma begins_no X g : (forall Y, In Y g -> Y <> X) -> begins X g = false.
Proof. destruct g as [|Y g]; [reflexivity|]. intro H. cbn [begins]. apply N.eqb_neq. intro E. exact (H Y (or_introl eq_refl) (eq_sym E)). Qed.
Lemma syms_no T w : (forall k, In k w -> sym_of k <> T) -> forall Y, In Y (map sym_of w) -> Y <> T.
Proof. intros H Y I. apply in_map_iff in I as (k & <- & J). auto. Qed.
Lemma show_no g : (forall Y, In Y g -> Y <> S_SHOW) -> match g with Y :: Z :: _ => N.eqb Y S_SHOW && N.eqb Z S_TABLES | _ => false end = false.
Proof. destruct g as [|Y [|Z g]]; try reflexivity. intro H. rewrite (proj2 (N.eqb_neq Y S_SHOW)); [reflexivity|]. apply H. now left. Qed.
Lemma occurs_app X a b : occurs X (a ++ b) = occurs X a || occurs X b. Proof. apply existsb_app. Qed.
Section Stmts.
Variable q : N -> bool.
Hypothesis Q : forall r, In r [5; 6; 7; 8; 9; 20; 21; 35; 36; 39; 40; 41; 50; 51; 52; 53; 54; 147; 148; 309; 310]%N -> q r = may_rule r.
Ltac qs := rewrite ?Q by (vm_compute; tauto).
Lemma late_hints X t h : derives X t -> In X [S_prepare_statement; S_preparable_statement] -> derives S_opt_hints h -> late q h = self_ending (map sym_of (yield t ++ yield h)).
Proof.
  intros DT IX DH.
  assert (HT : forall k, In k (yield t) -> sym_of k <> S_HINT /\ sym_of k <> S_TO /\ sym_of k <> S_SHOW /\ sym_of k <> S_DESCRIBE /\ sym_of k <> S_IMPORT).
  { intros k I. assert (M : memN X [S_prepare_statement; S_preparable_statement]%N = true) by (destruct IX as [<-|[<-|[]]]; vm_compute; reflexivity).
    clear M. repeat split; [apply (no_hint DT)|apply (no_to DT)|apply (no_show DT)|apply (no_describe DT)|apply (no_import DT)]; try exact I; destruct IX as [<-|[<-|[]]]; vm_compute; reflexivity. }
  assert (HH : forall k, In k (yield h) -> sym_of k <> S_TO /\ sym_of k <> S_SHOW /\ sym_of k <> S_DESCRIBE /\ sym_of k <> S_IMPORT).
  { intros k I. repeat split; [apply (no_to DH)|apply (no_show DH)|apply (no_describe DH)|apply (no_import DH)]; try exact I; vm_compute; reflexivity. }
  by_rule DH.
  - cbn [late]. qs. cbn [may_rule]. symmetry. unfold self_ending. rewrite map_app, occurs_app. cbn [yield flat_map map app]. repeat match goal with E : sym_of _ = _ |- _ => rewrite E end. unfold occurs at 2. cbn [existsb]. rewrite N.eqb_refl, !orb_true_r. reflexivity.
  - rewrite late_nil. cbn [yield flat_map]. rewrite app_nil_r. symmetry. unfold self_ending.
    rewrite (@occurs_no S_HINT), (@occurs_no S_TO), (@begins_no S_SHOW), (@begins_no S_DESCRIBE), (@begins_no S_IMPORT), show_no; [reflexivity|..]; apply syms_no; intros k I; apply (HT k I).
Qed.
Ltac syms := cbn [yield flat_map app map]; repeat match goal with E : sym_of _ = _ |- _ => rewrite E end.
Lemma last_app_cons (A : Type) (a : list A) x b d : last (a ++ x :: b) d = last (x :: b) d.
Proof. induction a as [|y a IH]; [reflexivity|]. cbn [app]. destruct (a ++ x :: b) eqn:E; [destruct a; discriminate E|]. exact IH. Qed.
Lemma late_copy_from t : derives S_import_statement t -> begins S_COPY (map sym_of (yield t)) = true -> self_ending (map sym_of (yield t)) = false.
Proof.
  intros DN B. assert (HT : forall T, In T [S_HINT; S_TO; S_SHOW; S_DESCRIBE] -> forall Y, In Y (map sym_of (yield t)) -> Y <> T).
  { intros T IT. apply syms_no. intros x IX. destruct IT as [<-|[<-|[<-|[<-|[]]]]]; [apply (no_hint DN)|apply (no_to DN)|apply (no_show DN)|apply (no_describe DN)]; try exact IX; vm_compute; reflexivity. }
  unfold self_ending. rewrite (@occurs_no S_HINT), (@occurs_no S_TO), (@begins_no S_SHOW), (@begins_no S_DESCRIBE), show_no; try (apply HT; vm_compute; tauto).
  destruct (map sym_of (yield t)) as [|Y g]; [reflexivity|]. cbn [begins] in *. apply N.eqb_eq in B. subst Y. reflexivity.
Qed.
Lemma late_where w : derives S_opt_where w -> late q w = false.
Proof. intro D. by_rule D; [cbn [late]|apply late_nil]. qs. reflexivity. Qed.
Lemma late_export a k p o : (forall x, In x (yield a) -> sym_of x <> S_HINT) -> sym_of k = S_TO -> derives S_file_path p -> derives S_opt_import_export_options o ->
  late q o = self_ending (S_COPY :: map sym_of (yield a ++ k :: yield p ++ yield o)).
Proof.
  intros HA EK DP DO. assert (HO : forall x, In x (yield o) -> sym_of x <> S_HINT) by (intros x I; apply (no_hint DO); [vm_compute; reflexivity|exact I]).
  assert (NH : occurs S_HINT (S_COPY :: map sym_of (yield a ++ k :: yield p ++ yield o)) = false).
  { apply occurs_no. intros Y [<-|I]; [discriminate|]. apply in_map_iff in I as (x & <- & I). rewrite in_app_iff in I. destruct I as [I|[<-|I]]; [auto|rewrite EK; discriminate|]. rewrite in_app_iff in I. destruct I as [I|I]; [|auto]. apply (no_hint DP); [vm_compute; reflexivity|exact I]. }
  assert (HO1 : occurs S_TO (S_COPY :: map sym_of (yield a ++ k :: yield p ++ yield o)) = true).
  { rewrite map_app. cbn [map]. rewrite EK. change (S_COPY :: ?x ++ ?y) with ((S_COPY :: x) ++ y). rewrite occurs_app. unfold occurs at 2. cbn [existsb]. rewrite N.eqb_refl, orb_true_r. reflexivity. }
  assert (SE : self_ending (S_COPY :: map sym_of (yield a ++ k :: yield p ++ yield o)) = N.eqb (last (map sym_of (yield p ++ yield o)) 0%N) S_rpar).
  { unfold self_ending. rewrite NH, HO1. cbn [orb andb begins N.eqb Pos.eqb]. assert (X : forall g, match g with Y :: _ => N.eqb S_COPY S_SHOW && N.eqb Y S_TABLES | [] => false end = false) by (intros [|]; reflexivity). rewrite X. cbn [orb].
    f_equal. rewrite map_app. cbn [map]. change (S_COPY :: ?x ++ ?y) with ((S_COPY :: x) ++ y). rewrite last_app_cons. by_rule DP. reflexivity. }
  rewrite SE. clear - Q DP DO. by_rule DP. by_rule DO.
  - cbn [late]. qs. cbn [yield flat_map app map]. rewrite (map_app sym_of (yield _) [_]).
    match goal with |- _ = N.eqb (last (?a :: ?b :: ?c :: ?x ++ ?y) _) _ => change (a :: b :: c :: x ++ y) with ((a :: b :: c :: x) ++ y) end. cbn [map]. rewrite last_last. match goal with E : sym_of _ = S_rpar |- _ => rewrite E end. reflexivity.
  - cbn [late]. qs. cbn [yield flat_map app map]. rewrite (map_app sym_of (yield _) _).
    match goal with |- _ = N.eqb (last (?a :: ?b :: ?x ++ ?y) _) _ => change (a :: b :: x ++ y) with ((a :: b :: x) ++ y) end. cbn [map]. rewrite last_last. match goal with E : sym_of _ = S_rpar |- _ => rewrite E end. reflexivity.
  - rewrite late_nil. cbn [yield flat_map app map last]. match goal with E : sym_of _ = S_STRING |- _ => rewrite E end. reflexivity.
Qed.
Lemma late_stmt t : derives S_statement t -> late q t = self_ending (map sym_of (yield t)).
Proof.
  intro D. by_rule D; cbn [late]; qs; cbn [yield flat_map]; rewrite ?app_nil_r.
  - eapply late_hints; [eassumption|now left|assumption].
  - eapply late_hints; [eassumption|right; now left|assumption].
  - match goal with H : derives S_show_statement _ |- _ => rename H into D end. by_rule D; cbn [late]; qs.
    + syms. reflexivity.
    + match goal with H : derives S_table_name _ |- _ => rename H into D end. by_rule D; cbn [late]; qs; syms; reflexivity.
    + match goal with H : derives S_table_name _ |- _ => rename H into D end. by_rule D; cbn [late]; qs; syms; reflexivity.
  - match goal with H : derives S_import_statement _ |- _ => rename H into D end. pose proof D as DN. by_rule D.
    + cbn [late]. qs. match goal with H : derives S_table_name _ |- _ => rename H into DT end. match goal with H : derives S_file_type _ |- _ => rename H into DF end. match goal with H : derives S_file_path _ |- _ => rename H into DP end.
      clear DN. by_rule DF. by_rule DP. by_rule DT; cbn [late]; qs; syms; reflexivity.
    + match goal with H : derives S_opt_where _ |- _ => rename H into DW end. rewrite (late_copy_from DN).
      * cbn [late]. rewrite (late_where DW), andb_false_r. reflexivity.
      * cbn [yield flat_map app map begins]. match goal with E : sym_of _ = S_COPY |- _ => rewrite E end. reflexivity.
  - match goal with H : derives S_export_statement _ |- _ => rename H into D end. by_rule D; cbn [late]; qs; cbn [yield flat_map app map]; match goal with E : sym_of _ = S_COPY |- _ => rewrite E end; rewrite app_nil_r; cbn [andb may_rule].
    + apply late_export; [|assumption..]. match goal with H : derives S_table_name _ |- _ => intros x I; apply (no_hint H); [vm_compute; reflexivity|exact I] end.
    + apply late_export; [|assumption..]. match goal with H : derives S_select_with_paren _ |- _ => intros x I; apply (no_hint H); [vm_compute; reflexivity|exact I] end.
Qed.
End Stmts.

(** ** The invariant *)
Definition lateinv (a : astate) : Prop :=
  match a_stk a with
  | [] => True
  | (s, t) :: _ => match a_look a with None => late may_rule t = true | Some _ => mute s = false \/ late must_rule t = false end
  end.
Lemma tok_rng t : (0 <= Z.of_N (sym_of t) < 199)%Z.
Proof. pose proof (sym_small t). lia. Qed.
Lemma last_top (n : nat) (s : Z) (t : tree) l : exists us, map snd (rev (firstn (Datatypes.S n) ((s, t) :: l))) = us ++ [t].
Proof. cbn [firstn rev]. rewrite map_app. eexists. reflexivity. Qed.
Lemma late_step a b : (0 <= atop (a_stk a) < 656)%Z -> lateinv a -> astep a = ACont b -> lateinv b.
Proof.
  unfold astep. intro RS. destruct (199 <=? List.length (a_stk a)); [discriminate|]. destruct (atop (a_stk a) =? YYFINAL)%Z; [discriminate|]. intros V E.
  destruct (decide (atop (a_stk a)) (atok (a_look a))) as [[|s'|r|]|] eqn:D; try discriminate E.
  - destruct (a_toks a) as [|t ts]; [discriminate E|]. injection E as <-. unfold lateinv in *. cbn [a_stk a_look]. destruct (a_stk a) as [|[s u] stk]; [exact I|]. left. cbn [atop] in D. unfold mute.
    destruct (a_look a) as [k|]; cbn [atok] in D; [exfalso|now rewrite D]. unfold decide, default_of in D. destruct (get yypact s); [|discriminate D]. cbn [obind] in D.
    repeat match type of D with context [if ?x then _ else _] => destruct x | context [obind ?x _] => destruct x; cbn [obind] in D end; discriminate D.
  - destruct (a_look a) as [t|]; [|discriminate E]. injection E as <-. reflexivity.
  - destruct (production (Z.to_N r)) as [[lhs rhs]|] eqn:P; [|discriminate E]. destruct (goto_of _ _) as [g|]; [|discriminate E]. injection E as <-. unfold lateinv. cbn [a_stk a_look].
    destruct (a_look a) as [k|] eqn:LK; cbn [atok] in D.
    + right. destruct (mute_some RS (tok_rng k) D) as [[M DN]|MR]; [|cbn [late]; rewrite MR; reflexivity].
      destruct (mute_none RS DN) as (_ & lhs' & X & rhs' & P'). rewrite P in P'. injection P' as -> ->. cbn [List.length].
      unfold lateinv in V. destruct (a_stk a) as [|[s u] stk]; [exfalso; cbn in M; vm_compute in M; discriminate M|]. rewrite LK in V. cbn [atop] in M. destruct V as [V|V]; [congruence|].
      destruct (last_top (List.length rhs') s u stk) as (us & ->). rewrite late_snoc, V. apply andb_false_r.
    + destruct (mute_none RS D) as (MR & lhs' & X & rhs' & P'). rewrite P in P'. injection P' as -> ->. cbn [List.length].
      unfold lateinv in V. destruct (a_stk a) as [|[s u] stk]; [exfalso; cbn in D; vm_compute in D; discriminate D|]. rewrite LK in V.
      destruct (last_top (List.length rhs') s u stk) as (us & ->). rewrite late_snoc, V, MR. reflexivity.
Qed.
(** When a statement becomes part of the list of statements, the token behind it has been read exactly if the statement is not self-ending. *)
Lemma late_at a r s t stk : (0 <= s < 656)%Z -> lateinv a -> a_stk a = (s, t) :: stk -> derives S_statement t -> decide s (atok (a_look a)) = Some (DReduce r) -> r = 3%Z \/ r = 4%Z ->
  (alook a = [] <-> self_ending (map sym_of (yield t)) = true).
Proof.
  intros RS V ES DT DR R.
  assert (L1 : late may_rule t = self_ending (map sym_of (yield t))) by (apply late_stmt; [reflexivity|exact DT]).
  assert (L2 : late must_rule t = self_ending (map sym_of (yield t))).
  { apply late_stmt; [|exact DT]. intros q I. unfold must_rule. assert (Z : memN q [292; 317]%N = false) by (cbn [In] in I; repeat (destruct I as [<-|I]; [vm_compute; reflexivity|]); destruct I). rewrite Z. apply andb_true_r. }
  unfold lateinv in V. rewrite ES in V. unfold alook. destruct (a_look a) as [k|]; cbn [atok] in DR.
  - split; [discriminate|]. intro SE. exfalso. destruct (mute_some RS (tok_rng k) DR) as [[M _]|MR]; [|destruct R as [-> | ->]; vm_compute in MR; discriminate MR]. destruct V as [V|V]; congruence.
  - split; [|reflexivity]. intros _. congruence.
Qed.
