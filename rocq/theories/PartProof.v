(** Parts said by grammar symbols, production by production; no code of /repo. *)
From Verif Require Export ExprMain Stmt.
From Coq Require Import ZifyBool ZifyNat ZifyN.
Local Open Scope nat_scope.
Set Implicit Arguments.
Unset Strict Implicit.

(** Symbols whose text may end with an open operator. *)
Definition open_symbols : list N := [S_expr; S_operand; S_opt_not_exists].
Fixpoint close_open (n : nat) (l : list N) : list N :=
  match n with
  | O => l
  | S n => close_open n (l ++ flat_map (fun p => let X := fst (snd p) in let rhs := snd (snd p) in
      if negb (existsb (N.eqb X) l) && (fix go (Ys : list N) := match Ys with [] => false | Y :: Ys' => (forallb null Ys' && existsb (N.eqb Y) l) || go Ys' end) rhs then [X] else []) grammar)
  end.
Definition open_list : list N := Eval vm_compute in nodup N.eq_dec (close_open 8 open_symbols).
Definition lev (X : N) : nat := if existsb (N.eqb X) open_list then 0 else 12.
Lemma lev_12 X : lev X <= 12. Proof. unfold lev. destruct (existsb _ _); lia. Qed.

(** [says X p]: some derivation tree of [X] has the tokens and the value of [p]; the value is undefined if the checks of [p] fail. *)
Definition says (X : N) (p : part) : Prop := forall k, exists t, derives X t /\ map core (yield t) = q_tok p /\
  sem t k = (if q_ok p k then Some (q_obj p k, k + q_params p) else None) /\ (forall nx, ends (lev X) nx = true -> respects t nx = true) /\ forallb (edge (lev X)) (left_edge t) = true /\ need t <= q_stack p.
Lemma said_says X p L : (forall k, q_ok p k = true /\ said X (q_tok p) k (q_obj p k) (k + q_params p) L L (q_stack p)) -> lev X <= L -> says X p.
Proof.
  intros H LE k. destruct (H k) as (OK & t & [A B C R E N]). exists t. rewrite OK. repeat split; auto.
  - intros nx EN. apply R. eapply ends_mono; eassumption.
  - rewrite forallb_forall in *. intros x I. eapply edge_mono; [exact LE|]. auto.
Qed.
Lemma says_said X p k : says X p -> q_ok p k = true -> said X (q_tok p) k (q_obj p k) (k + q_params p) (lev X) (lev X) (q_stack p).
Proof. intros H OK. destruct (H k) as (t & A & B & C & R & E & N). rewrite OK in C. exists t. now constructor. Qed.
Lemma says_pos X p : says X p -> 1 <= q_stack p.
Proof. intros H. destruct (H 0) as (t & _ & _ & _ & _ & _ & N). pose proof (need_pos t). lia. Qed.

Fixpoint follow_check (lx : nat) (rhs : list N) : bool :=
  match rhs with
  | [] => true
  | Y :: rest => (if 12 <=? lev Y then true else let f := seq_first rest 0 in forallb (fun c => if N.testbit f c then ends (lev Y) c else true) (map N.of_nat (seq 0 199))) && (negb (forallb null rest) || (lx <=? lev Y)) && follow_check lx rest
  end.
Definition rule_check (r : N) : bool :=
  match production r with
  | Some (X, rhs) => negb (is_operator r) && negb (N.eqb r 298) && follow_check (lev X) rhs && edge2 (lev X) rhs && match rhs with Y :: _ => lev X <=? lev Y | [] => true end
  | None => false
  end.
Lemma list_first Xs ts k l : derives_list Xs ts -> yields ts = k :: l -> N.testbit (seq_first Xs 0) (sym_of k) = true.
Proof.
  intros D. revert k l. induction D as [|X Xs t ts D1 D2 IH]; intros k l E; [discriminate|]. destruct (derives_first D1) as [A B]. cbn [yields flat_map] in E. fold (yields ts) in E. cbn [seq_first].
  destruct (yield t) as [|k' l'] eqn:EY.
  - rewrite A by reflexivity. rewrite N.lor_spec. cbn [app] in E. now rewrite (IH _ _ E), orb_true_r.
  - cbn [app] in E. injection E as <- <-. pose proof (B _ _ eq_refl) as F. destruct (null X); [now rewrite N.lor_spec, F|exact F].
Qed.
Lemma list_null Xs ts : derives_list Xs ts -> yields ts = [] -> forallb null Xs = true.
Proof.
  induction 1 as [|X Xs t ts D1 D2 IH]; intros E; [reflexivity|]. cbn [yields flat_map] in E. fold (yields ts) in E. apply app_eq_nil in E as [E1 E2]. cbn [forallb].
  now rewrite (proj1 (derives_first D1) E1), (IH E2).
Qed.
Lemma sym_199 k : In (sym_of k) (map N.of_nat (seq 0 199)).
Proof. pose proof (sym_terminal k) as T. unfold terminal in T. apply in_map_iff. exists (N.to_nat (sym_of k)). split; [lia|]. apply in_seq. lia. Qed.
(** Sequences. *)
Lemma says_seq_trees lx rhs ps : Forall2 says rhs ps -> follow_check lx rhs = true -> forall k i, exists ts, derives_list rhs ts /\ map core (yields ts) = flat_map q_tok ps /\
  sems ts k = (if all_ok ps k then Some (values ps k, k + total ps) else None) /\ (forall nx, ends lx nx = true -> respects_all ts nx = true) /\ need_all ts i <= stack_from i (map q_stack ps) /\
  match ts, rhs with u :: _, Y :: _ => forallb (edge (lev Y)) (left_edge u) = true | _, _ => True end.
Proof.
  induction 1 as [|Y p rhs ps HY HS IH]; intros FC k i.
  - exists []. split; [constructor|]. split; [reflexivity|]. split; [cbn; now rewrite Nat.add_0_r|]. split; [reflexivity|]. split; [cbn; lia|exact Logic.I].
  - cbn [follow_check] in FC. apply andb_true_iff in FC as [FC FC3]. apply andb_true_iff in FC as [FC1 FC2]. destruct (HY k) as (t & A & B & C & R & E & N). destruct (IH FC3 (k + q_params p) (S i)) as (ts & A' & B' & C' & R' & N' & _).
    exists (t :: ts). split; [now constructor|]. split; [unfold yields in *; cbn [flat_map]; rewrite map_app; congruence|]. split; [|split; [|split]].
    + cbn [sems all_ok values numbered_list]. rewrite C. destruct (q_ok p k); [|reflexivity]. rewrite C'. cbn [andb]. destruct (all_ok ps _); [|reflexivity].
      unfold values. unfold total. cbn [map]. change (list_sum (q_params p :: map q_params ps)) with (q_params p + list_sum (map q_params ps)). now rewrite Nat.add_assoc.
    + intros nx EN. cbn [respects_all]. rewrite (R' nx EN), andb_true_r. apply R. unfold first_of. destruct (yields ts) as [|tk l] eqn:EY.
      * rewrite (list_null A' EY) in FC2. cbn [negb orb] in FC2. eapply ends_mono; [|exact EN]. lia.
      * destruct (12 <=? lev Y) eqn:L12; [eapply ends_mono; [|apply ends_12]; lia|]. cbv zeta in FC1. rewrite forallb_forall in FC1. specialize (FC1 _ (sym_199 tk)). rewrite (list_first A' EY) in FC1. exact FC1.
    + cbn [need_all map stack_from]. lia.
    + exact E.
Qed.
(** A production.  [ps]: its parts; [p]: the whole. *)
Lemma says_rule r X rhs ps p : production r = Some (X, rhs) -> Forall2 says rhs ps -> rule_check r = true -> flat_map q_tok ps = q_tok p ->
  (forall k, (if all_ok ps k then asem r (k + total ps) (values ps k) else None) = if q_ok p k then Some (q_obj p k) else None) -> total ps = q_params p -> stack (map q_stack ps) <= q_stack p -> says X p.
Proof.
  intros P HS RC T A TP SP k. unfold rule_check in RC. rewrite P in RC. repeat (apply andb_true_iff in RC as [RC ?C]). apply negb_true_iff in RC, C2.
  destruct (says_seq_trees HS C1 k 0) as (ts & D & Y & S & R & N & E). exists (Node r ts). split; [econstructor; eassumption|]. split; [cbn [yield]; fold (yields ts); congruence|]. split; [|split; [|split]].
  - rewrite sem_node, S. specialize (A k). destruct (all_ok ps k) eqn:O.
    + rewrite A, C2. destruct (q_ok p k); [now rewrite TP|reflexivity].
    + destruct (q_ok p k); [discriminate A|reflexivity].
  - intros nx EN. rewrite respects_node, (R nx EN). unfold may_end. rewrite RC. cbn [andb negb orb]. rewrite andb_true_r. unfold tail_ok. destruct (rev ts); [reflexivity|]. apply forallb_forall. intros x _. unfold may_extend. now rewrite RC.
  - destruct ts as [|u us]; [reflexivity|]. destruct rhs as [|Z rhs]; [inversion D|]. apply left_edge_node.
    + rewrite forallb_forall in *. intros x I. eapply edge_mono; [|apply E; exact I]. lia.
    + destruct us as [|[tk|] us]; auto. inversion D as [|? ? ? ? D1 D2]; subst. inversion D2 as [|? ? ? ? D3 D4]; subst. destruct (derives_leaf D3) as (-> & T2). unfold edge2 in C0. rewrite T2 in C0. exact C0.
  - rewrite need_node. unfold stack in SP. lia.
Qed.
Lemma says_seqp r X rhs ps f (ok : list val -> bool) : production r = Some (X, rhs) -> Forall2 says rhs ps -> rule_check r = true ->
  (forall k, all_ok ps k = true -> asem r (k + total ps) (values ps k) = if ok (values ps k) then Some (f (values ps k)) else None) -> says X (seqp f ok ps).
Proof.
  intros P HS RC A. eapply says_rule; try eassumption; try reflexivity. intros k. cbn [seqp q_ok q_obj]. destruct (all_ok ps k) eqn:O; [|reflexivity]. cbn [andb]. exact (A k O).
Qed.
Lemma says_seq r X rhs ps f : production r = Some (X, rhs) -> Forall2 says rhs ps -> rule_check r = true -> (forall k, all_ok ps k = true -> asem r (k + total ps) (values ps k) = Some (f (values ps k))) -> says X (seq_ f ps).
Proof. intros P HS RC A. eapply says_seqp; try eassumption. Qed.
Lemma says_up r X Y p : production r = Some (X, [Y]) -> rule_check r = true -> (forall k v, asem r k [v] = Some v) -> says Y p -> says X p.
Proof.
  intros P RC A H. eapply (@says_rule r X [Y] [p]); [exact P|constructor; [exact H|constructor]|exact RC|apply app_nil_r| |cbn; lia|].
  - intros k. cbn [all_ok values numbered_list]. rewrite andb_true_r, A. reflexivity.
  - pose proof (says_pos H). cbn. lia.
Qed.
Lemma says_nothing r X v : production r = Some (X, []) -> rule_check r = true -> (forall k, asem r k [] = Some v) -> says X (nothing v).
Proof. intros P RC A. eapply (@says_rule r X [] []); try reflexivity; [exact P|constructor|exact RC|]. intros k. cbn. apply A. Qed.
Lemma says_token X c v : sym_of_code (fst c) = X -> v = tok_val (snd c) -> lev X = 12 -> says X (token_part c v).
Proof. intros E -> LX. apply said_says with (L := 12); [|lia]. intros k. split; [reflexivity|]. cbn. rewrite Nat.add_0_r. now apply said_tok. Qed.
Lemma says_kw X c : sym_of_code c = X -> lev X = 12 -> says X (kw c).
Proof. intros E L. now apply says_token. Qed.
Lemma says_id s : says S_IDENTIFIER (pid s). Proof. now apply says_token. Qed.
Lemma says_num z : says S_INTVAL (pnum z). Proof. now apply says_token. Qed.
Lemma says_string s : says S_STRING (pstring s). Proof. now apply says_token. Qed.
Lemma says_float f : says S_FLOATVAL (pfloat f). Proof. now apply says_token. Qed.
(** ** Lists *)
Lemma values_snoc ps p k : values (ps ++ [p]) k = values ps k ++ [q_obj p (k + total ps)].
Proof. unfold values. rewrite numbered_snoc. reflexivity. Qed.
Lemma all_ok_snoc ps p k : all_ok (ps ++ [p]) k = all_ok ps k && q_ok p (k + total ps).
Proof. revert k. induction ps as [|q ps IH]; intros k; cbn [app all_ok]; [unfold total; cbn; now rewrite Nat.add_0_r, andb_true_r|]. rewrite IH, <- andb_assoc. unfold total. cbn [map]. change (list_sum (q_params q :: map q_params ps)) with (q_params q + list_sum (map q_params ps)). now rewrite Nat.add_assoc. Qed.
Lemma total_snoc ps p : total (ps ++ [p]) = total ps + q_params p.
Proof. unfold total. rewrite map_app, list_sum_app. cbn. lia. Qed.
Lemma total_cons p ps : total (p :: ps) = q_params p + total ps. Proof. reflexivity. Qed.
Lemma row_stack_pos l : 1 <= row_stack l.
Proof. unfold row_stack. induction l; cbn [fold_right]; lia. Qed.
Lemma row_stack_snoc l x : row_stack (l ++ [x]) = Nat.max (row_stack l) (1 + x).
Proof. unfold row_stack. induction l as [|y l IH]; cbn [app fold_right] in *; [lia|]. rewrite IH. lia. Qed.
Lemma says_plist X Y r1 r2 ps : production r1 = Some (X, [Y]) -> production r2 = Some (X, [X; S_comma; Y]) -> rule_check r1 = true -> rule_check r2 = true ->
  (forall k v, asem r1 k [v] = Some (vec [v])) -> (forall k a c v, asem r2 k [a; c; v] = Some (snoc a v)) -> ps <> [] -> Forall (says Y) ps -> says X (plist ps).
Proof.
  intros P1 P2 C1 C2 A1 A2. induction ps as [|p ps IH] using rev_ind; [now intros []|]. intros _ F. apply Forall_app in F as [F FP]. inversion FP as [|? ? HP _]; subst. pose proof (says_pos HP) as POS. destruct ps as [|q ps].
  - eapply (@says_rule r1 X [Y] [p]); [exact P1|constructor; [exact HP|constructor]|exact C1|cbn; now rewrite app_nil_r| |cbn; lia|cbn; lia].
    intros k. cbn [app plist q_ok q_obj all_ok values numbered_list]. rewrite andb_true_r, A1. reflexivity.
  - assert (NE : q :: ps <> []) by discriminate. specialize (IH NE F). remember (q :: ps) as qs eqn:E2. clear E2 q ps.
    eapply (@says_rule r2 X [X; S_comma; Y] [plist qs; kw 44; p]); [exact P2|constructor; [exact IH|constructor; [now apply says_kw|constructor; [exact HP|constructor]]]|exact C2| | | |].
    + cbn [flat_map plist q_tok]. rewrite map_app. cbn [map]. rewrite commas_snoc by (destruct qs; [contradiction|discriminate]). reflexivity.
    + intros k. cbn [plist q_ok q_obj all_ok values numbered_list]. fold (values (qs ++ [p]) k). rewrite values_snoc, all_ok_snoc. cbn [kw token_part q_ok q_params]. rewrite Nat.add_0_r, andb_true_r. cbn [andb].
      fold (values qs k). cbn [plist prow q_params]. destruct (all_ok qs k && q_ok p (k + total qs)); [|reflexivity]. rewrite A2. reflexivity.
    + rewrite !total_cons. cbn [plist q_params kw token_part]. rewrite total_snoc. unfold total at 2. cbn. lia.
    + cbn [plist q_stack map]. rewrite map_app. cbn [map]. rewrite list_stack_snoc. pose proof (list_stack_pos (map q_stack qs)). cbn [stack stack_from kw token_part q_stack]. lia.
Qed.
Lemma says_prow X Y r1 r2 ps : production r1 = Some (X, [Y]) -> production r2 = Some (X, [X; Y]) -> rule_check r1 = true -> rule_check r2 = true ->
  (forall k v, asem r1 k [v] = Some (vec [v])) -> (forall k a v, asem r2 k [a; v] = Some (snoc a v)) -> ps <> [] -> Forall (says Y) ps -> says X (prow ps).
Proof.
  intros P1 P2 C1 C2 A1 A2. induction ps as [|p ps IH] using rev_ind; [now intros []|]. intros _ F. apply Forall_app in F as [F FP]. inversion FP as [|? ? HP _]; subst. pose proof (says_pos HP) as POS. destruct ps as [|q ps].
  - eapply (@says_rule r1 X [Y] [p]); [exact P1|constructor; [exact HP|constructor]|exact C1|reflexivity| |cbn; lia|cbn; lia].
    intros k. cbn [app prow q_ok q_obj all_ok values numbered_list]. rewrite andb_true_r, A1. reflexivity.
  - assert (NE : q :: ps <> []) by discriminate. specialize (IH NE F). remember (q :: ps) as qs eqn:E2. clear E2 q ps.
    eapply (@says_rule r2 X [X; Y] [prow qs; p]); [exact P2|constructor; [exact IH|constructor; [exact HP|constructor]]|exact C2| | | |].
    + cbn [flat_map prow q_tok]. rewrite flat_map_app. reflexivity.
    + intros k. cbn [prow q_ok q_obj all_ok values numbered_list]. fold (values (qs ++ [p]) k). rewrite values_snoc, all_ok_snoc. rewrite andb_true_r.
      fold (values qs k). cbn [plist prow q_params]. destruct (all_ok qs k && q_ok p (k + total qs)); [|reflexivity]. rewrite A2. reflexivity.
    + rewrite !total_cons. cbn [prow q_params]. rewrite total_snoc. unfold total at 2. cbn. lia.
    + cbn [prow q_stack map]. rewrite map_app. cbn [map]. rewrite row_stack_snoc. pose proof (row_stack_pos (map q_stack qs)). cbn [stack stack_from q_stack]. lia.
Qed.

(** ** Tactics *)
Ltac one := first [eassumption | solve [auto 3] | apply says_id | apply says_num | apply says_string | apply says_float | (apply says_kw; vm_compute; reflexivity)].
Ltac parts_ := first [apply Forall2_nil | apply Forall2_cons; [try one | parts_]].
Ltac sr r := first [eapply (@says_seq r) | eapply (@says_seqp r)]; [reflexivity | parts_ | vm_compute; reflexivity | try (intros; reflexivity)].
Ltac su r := eapply (@says_up r); [reflexivity | vm_compute; reflexivity | intros; reflexivity | try one].
Ltac sn r := eapply (@says_nothing r); [reflexivity | vm_compute; reflexivity | intros; reflexivity].
