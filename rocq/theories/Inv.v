(** The invariant of the parser's main loop: every stack entry carries a derivation tree, a well-typed value, and all
    blocks are accounted for.  No code of /repo. *)
From Verif Require Export BisonTables TableCheck Driver Abs Destruct Poke ActSpecial3 ActSpec.
From Coq Require Import ZifyBool ZifyNat ZifyN.
Local Open Scope nat_scope.
Set Implicit Arguments.
Unset Strict Implicit.

(** ** Tokens *)
Definition tok_ok (t : token) : Prop :=
  match t_val t, symty (sym_of t) with
  | TVNone, TUninit | TVStr _, TStr | TVInt _, TInt | TVFlt _, TFlt => True
  | _, _ => False
  end.
Definition code_of (t : token) : Z := if (t_code t <=? 0)%Z then 0%Z else t_code t.
Lemma sym_code t : sym_of_code (code_of t) = sym_of t.
Proof. unfold code_of, sym_of, sym_of_code. destruct (t_code t <=? 0)%Z eqn:E; [reflexivity|]. now rewrite E. Qed.
Lemma read_token_ok t e F : tok_ok t -> heap e F -> exists v e', read_token t e = ROk (code_of t, v) e' /\
  wt v (symty (sym_of t)) /\ erase v = token_val t /\ (forall q, cp q v = 0) /\ heap e' (fun x => ca x v + F x) /\ err_eq e e' /\
  e_stmts e' = e_stmts e /\ e_params e' = e_params e /\ e_plist e' = e_plist e /\
  e_lpos e' = mkPos (fl (t_pos t)) (fc (t_pos t)) (ll (t_pos t)) (lc (t_pos t)) (total (t_pos t)) (slen (e_lpos e) + t_len t).
Proof.
  intros T H. unfold read_token, bind, tok_ok, code_of, token_val in *.
  set (e1 := set_lpos _ e). assert (H1 : heap e1 F) by (destruct H; constructor; assumption).
  destruct (t_val t) as [|s|z|f] eqn:EV; destruct (symty (sym_of t)); try destruct T; cbn [token_value].
  - exists VUninit, e1. split; [reflexivity|]. split; [apply wt_uninit|]. split; [reflexivity|]. split; [reflexivity|]. split; [exact H1|]. repeat split; reflexivity.
  - unfold snew, bind. destruct (alloc_spec H1) as (_ & e2 & E & H2 & ((S1 & S2 & S3 & S4 & S5) & S6)). rewrite E. unfold ret.
    eexists _, _. split; [reflexivity|]. split; [apply wt_str|]. split; [reflexivity|]. split; [reflexivity|]. split; [exact H2|]. split; [exact S6|]. auto.
  - exists (VInt z), e1. split; [reflexivity|]. split; [apply wt_int|]. split; [reflexivity|]. split; [reflexivity|]. split; [exact H1|]. repeat split; reflexivity.
  - exists (VFlt f), e1. split; [reflexivity|]. split; [apply wt_flt|]. split; [reflexivity|]. split; [reflexivity|]. split; [exact H1|]. repeat split; reflexivity.
Qed.

(** ** Cleaning up *)
Definition sym (x : entry) : N := stos (s_state x).
Lemma get_stos s : (0 <= s < 656)%Z -> exists y, get yystos s = Some y /\ Z.to_N y = stos s.
Proof.
  intro R. unfold stos. destruct (Z.eq_dec s YYFINAL) as [->|NF]; [eexists; split; reflexivity|].
  pose proof (state_ok_all R NF) as K. unfold state_ok in K.
  destruct (get yystos s) as [y|]; [eauto|]. rewrite !andb_false_r in K. discriminate K.
Qed.
Lemma no_error_shift s : (0 <= s < 656)%Z -> s <> YYFINAL -> error_shift s = Some false.
Proof.
  intros R NF. pose proof (state_ok_all R NF) as K. unfold state_ok in K.
  rewrite !andb_true_iff in K. destruct K as [[[_ K] _] _]. destruct (error_shift s) as [[]|]; [discriminate K|reflexivity|discriminate K].
Qed.
Definition cleans (m : M unit) (g : N -> nat) (clean : bool) : Prop :=
  exists h, frees m h /\ (forall x, h x <= g x) /\ (clean = true -> forall x, h x = g x).
Lemma cleans_seq m1 m2 g1 g2 c1 c2 : cleans m1 g1 c1 -> cleans m2 g2 c2 -> cleans (m1 ;; m2) (fun x => g1 x + g2 x) (c1 && c2).
Proof.
  intros (h1 & F1 & L1 & E1) (h2 & F2 & L2 & E2). exists (fun x => h1 x + h2 x). split; [apply frees_seq; assumption|].
  split; [intro x; specialize (L1 x); specialize (L2 x); lia|]. intros C x. apply andb_prop in C as [C1 C2]. now rewrite E1, E2.
Qed.
Lemma cleans_ret g : (forall x, g x = 0) -> cleans (ret tt) g true.
Proof. intro Z. exists (fun _ => 0). split; [apply frees_ret; reflexivity|]. split; [intro; lia|]. intros _ x. now rewrite Z. Qed.
Lemma cleans_ext m g g' c c' : cleans m g c -> (forall x, g x = g' x) -> (c' = true -> c = true) -> cleans m g' c'.
Proof. intros (h & F & L & E) G C. exists h. split; [exact F|]. split; [intro x; rewrite <- G; apply L|]. intros K x. rewrite <- G. auto. Qed.
Lemma cleans_run m g c e F : cleans m g c -> heap e (fun x => g x + F x) -> exists e' lost, m e = ROk tt e' /\ same e e' /\
  heap e' (fun x => lost x + F x) /\ (c = true -> forall x, lost x = 0).
Proof.
  intros (h & FR & L & E) H. destruct (FR e (fun x => (g x - h x) + F x)) as (e' & EQ & H' & S).
  { eapply heap_ext; [exact H|]. intro x. specialize (L x). cbn beta. lia. }
  exists e', (fun x => g x - h x). split; [exact EQ|]. split; [exact S|]. split; [exact H'|]. intros C x. rewrite (E C). lia.
Qed.
Definition typed_entry (x : entry) : Prop := wt (s_val x) (symty (sym x)).
(** The destructor frees everything. *)
Definition tidy (x : entry) : bool := negb (leaky (sym x)) || match s_val x with VNull => true | _ => false end.
Lemma entry_cleans x : typed_entry x -> (0 <= s_state x < 656)%Z -> cleans (destruct_entry x) (fun y => ca y (s_val x)) (tidy x).
Proof.
  intros W R. unfold destruct_entry. destruct (get_stos R) as (y & E & EY). rewrite E, EY.
  destruct (destruct_ok W) as (g & F & L & Q). exists g. split; [exact F|]. split; [exact L|]. intros C y0. unfold tidy, sym in *.
  destruct (leaky _) eqn:LK; [|apply Q; reflexivity]. cbn [negb orb] in C. destruct (s_val x); try discriminate C.
  specialize (L y0). cbn in L |- *. lia.
Qed.
Definition quiet (l : list entry) : bool := forallb tidy l.
Lemma pop_all_cleans l b : Forall typed_entry l -> Forall (fun x => (0 <= s_state x < 656)%Z) l ->
  cleans (pop_all (l ++ [b])) (fun y => cas y (map s_val l)) (quiet l).
Proof.
  induction 1 as [|x l W WL IH]; intro R; [apply cleans_ret; reflexivity|]. inversion R; subst. cbn [map cas quiet forallb].
  assert (E : pop_all ((x :: l) ++ [b]) = (destruct_entry x ;; pop_all (l ++ [b]))) by (cbn [app pop_all]; destruct (l ++ [b]) eqn:Q; [destruct l; discriminate|reflexivity]).
  rewrite E. apply cleans_seq; [apply entry_cleans; assumption|apply IH; assumption].
Qed.
Lemma pop_error_cleans l b : Forall typed_entry l -> Forall (fun x => (0 <= s_state x < 656)%Z) l ->
  Forall (fun x => error_shift (s_state x) = Some false) (l ++ [b]) ->
  cleans (pop_error (l ++ [b])) (fun y => cas y (map s_val l)) (quiet l).
Proof.
  induction 1 as [|x l W WL IH]; intros R NE.
  - cbn [app pop_error]. inversion NE as [|? ? N1 N2]; subst. rewrite N1. apply cleans_ret; reflexivity.
  - inversion R; subst. inversion NE as [|? ? N1 N2]; subst. cbn [map cas quiet forallb].
    assert (E : pop_error ((x :: l) ++ [b]) = (destruct_entry x ;; pop_error (l ++ [b]))).
    { cbn [app pop_error]. rewrite N1. destruct (l ++ [b]) eqn:Q; [destruct l; discriminate|reflexivity]. }
    rewrite E. apply cleans_seq; [apply entry_cleans; assumption|apply IH; assumption].
Qed.
(** The lookahead belongs to token [lk]. *)
Definition look_ok (l : option (Z * val)) (lk : list token) : Prop :=
  match l, lk with
  | None, [] => True
  | Some (c, v), [t] => c = code_of t /\ wt v (symty (sym_of t)) /\ erase v = token_val t /\ (forall q, cp q v = 0)
  | _, _ => False
  end.
Definition lca (x : N) (l : option (Z * val)) : nat := match l with Some (_, v) => ca x v | None => 0 end.
Lemma terminal_not_leaky t : leaky (sym_of t) = false.
Proof.
  unfold leaky. destruct (existsb (N.eqb (sym_of t)) leaky_syms) eqn:E; [|reflexivity]. exfalso.
  apply existsb_exists in E as (Y & I & E). apply N.eqb_eq in E.
  assert (R : (0 <= code_of t)%Z) by (unfold code_of; destruct (Z.leb_spec (t_code t) 0); lia).
  destruct (yytranslate_range R) as (y & _ & RY & _ & EY). rewrite sym_code in EY.
  unfold leaky_syms in I. cbn [In] in I. unfold S_opt_column_constraints, S_column_constraints, S_update_clause_commalist, S_update_clause,
   S_opt_locking_clause, S_opt_locking_clause_list, S_locking_clause, S_opt_with_clause, S_with_clause, S_with_description_list in I. lia.
Qed.
Lemma drop_look_cleans l lk : look_ok l lk -> cleans (drop_look l) (fun y => lca y l) true.
Proof.
  intro L. destruct l as [[c v]|]; [|apply cleans_ret; reflexivity]. destruct lk as [|t []]; try destruct L as []; [].
  destruct H0 as (W & _). cbn [drop_look].
  assert (R : (0 <= code_of t)%Z) by (unfold code_of; destruct (Z.leb_spec (t_code t) 0); lia).
  destruct (yytranslate_range R) as (y & E & _ & _ & EY). subst c. rewrite E, EY, sym_code.
  destruct (destruct_ok W) as (g & F & LE & Q). exists g. split; [exact F|]. split; [exact LE|]. intros _. apply Q. apply terminal_not_leaky.
Qed.

(** ** Derivation trees *)
Fixpoint solid (t : tree) : bool := match t with Leaf _ => true | Node _ [] => false | Node _ (c :: _) => solid c end.
(** The symbols some derivation tree of which starts with an empty one. *)
Definition hollow_step (l : list N) : list N :=
  nodup N.eq_dec (l ++ flat_map (fun p => match snd (snd p) with
                                         | [] => [fst (snd p)]
                                         | Y :: _ => if existsb (N.eqb Y) l then [fst (snd p)] else []
                                         end) grammar).
Definition hollow : list N := Eval vm_compute in Nat.iter 10 hollow_step [].
Definition is_hollow (X : N) : bool := existsb (N.eqb X) hollow.
Definition starts_hollow (rhs : list N) : bool := match rhs with [] => true | Y :: _ => is_hollow Y end.
Lemma production_In r lhs rhs : production r = Some (lhs, rhs) -> In (r, (lhs, rhs)) grammar.
Proof.
  unfold production. destruct (find _ grammar) as [[r1 y]|] eqn:F; [|discriminate]. intro E. injection E as ->.
  apply find_some in F as [I E]. cbn [fst] in E. now apply N.eqb_eq in E as ->.
Qed.
Lemma derives_solid X t : derives X t -> is_hollow X = false -> solid t = true.
Proof.
  assert (K : forallb (fun p => is_hollow (fst (snd p)) || negb (starts_hollow (snd (snd p)))) grammar = true) by (vm_compute; reflexivity).
  rewrite forallb_forall in K.
  intro D. revert X t D. apply (derives_mind (fun X t _ => is_hollow X = false -> solid t = true)
    (fun Xs ts _ => starts_hollow Xs = false -> match ts with [] => False | c :: _ => solid c = true end)).
  - reflexivity.
  - intros r lhs rhs ts P D IH H. apply production_In in P. specialize (K _ P). cbn [fst snd] in K. rewrite H in K. cbn [orb] in K.
    apply negb_true_iff in K. specialize (IH K). cbn [solid]. destruct ts; [destruct IH|exact IH].
  - discriminate.
  - intros X Xs t ts D IH DL _ H. auto.
Qed.
Lemma derives_terminal X t : derives X t -> (X < 199)%N -> exists k, t = Leaf k /\ sym_of k = X.
Proof.
  destruct 1 as [k|r lhs rhs ts P D]; intro H; [eauto|]. pose proof (sym_small P). lia.
Qed.
(** Trees whose construction loses memory: array access, and CREATE INDEX on a table with schema. *)
Definition plain_index (ts : list tree) : bool := match nth_error ts 5 with Some (Node 309 _) => true | _ => false end.
Fixpoint leak_free (t : tree) : bool :=
  match t with
  | Leaf _ => true
  | Node r ts => negb (N.eqb r 274) && (negb (N.eqb r 58) || plain_index ts) && forallb leak_free ts
  end.
(** How many blocks the construction of a tree loses. *)
Definition leak_here (r : N) (ts : list tree) : nat := if N.eqb r 274 then 1 else if N.eqb r 58 then (if plain_index ts then 0 else 1) else 0.
Fixpoint leak_count (t : tree) : nat := match t with Leaf _ => 0 | Node r ts => leak_here r ts + list_sum (map leak_count ts) end.
Definition leak_sum (ts : list tree) : nat := list_sum (map leak_count ts).
Lemma leak_sum_app a b : leak_sum (a ++ b) = leak_sum a + leak_sum b.
Proof. unfold leak_sum. now rewrite map_app, list_sum_app. Qed.
Lemma leak_free_count t : leak_free t = true -> leak_count t = 0.
Proof.
  revert t. fix IH 1. intros [k|r ts]; [reflexivity|]. cbn [leak_free leak_count]. intro E. apply andb_prop in E as [E F]. apply andb_prop in E as [E1 E2].
  assert (H : leak_here r ts = 0).
  { unfold leak_here. apply negb_true_iff in E1. rewrite E1. destruct (N.eqb r 58); [|reflexivity]. cbn [negb orb] in E2. now rewrite E2. }
  rewrite H. cbn [plus]. clear E1 E2 H. induction ts as [|t ts IHt]; [reflexivity|]. cbn [forallb] in F. apply andb_prop in F as [F1 F2].
  cbn [map list_sum fold_right]. rewrite (IH t F1). exact (IHt F2).
Qed.
Lemma leak_free_sum ts : forallb leak_free ts = true -> leak_sum ts = 0.
Proof.
  unfold leak_sum. induction ts as [|t ts IH]; [reflexivity|]. cbn [forallb]. intro F. apply andb_prop in F as [F1 F2].
  cbn [map list_sum fold_right]. rewrite (leak_free_count F1). exact (IH F2).
Qed.

(** ** Semantics of sequences *)
Lemma sem_node r ts k : sem (Node r ts) k =
  match sems ts k with
  | None => None
  | Some (vs, k') => match asem r k' vs with Some v => Some (v, if N.eqb r 298 then S k' else k') | None => None end
  end.
Proof.
  cbn [sem]. assert (E : forall ts k, (fix go (ts : list tree) (k : nat) : option (list val * nat) :=
             match ts with
             | [] => Some ([], k)
             | t :: ts' =>
               match sem t k with
               | None => None
               | Some (v, k1) => match go ts' k1 with Some (vs, k2) => Some (v :: vs, k2) | None => None end
               end
             end) ts k = sems ts k).
  { induction ts0 as [|t ts0 IH]; intro j; [reflexivity|]. cbn [sems]. destruct (sem t j) as [[v k1]|]; [|reflexivity]. now rewrite IH. }
  rewrite E. reflexivity.
Qed.
Lemma sems_app a : forall b k, sems (a ++ b) k =
  match sems a k with None => None | Some (vs, k1) => match sems b k1 with Some (ws, k2) => Some (vs ++ ws, k2) | None => None end end.
Proof.
  induction a as [|t a IH]; intros b k; cbn [app sems]; [destruct (sems b k) as [[]|]; reflexivity|].
  destruct (sem t k) as [[v k1]|]; [|reflexivity]. rewrite IH. destruct (sems a k1) as [[vs k2]|]; [|reflexivity].
  destruct (sems b k2) as [[ws k3]|]; reflexivity.
Qed.
Lemma sems_length a : forall k vs n, sems a k = Some (vs, n) -> List.length vs = List.length a.
Proof.
  induction a as [|t a IH]; intros k vs n E; cbn [sems] in E; [now injection E as <- <-|].
  destruct (sem t k) as [[v k1]|]; [|discriminate]. destruct (sems a k1) as [[ws k2]|] eqn:Q; [|discriminate].
  injection E as <- <-. cbn [List.length]. f_equal. eauto.
Qed.
Lemma sems_split a b vs ws n : sems (a ++ b) 0 = Some (vs ++ ws, n) -> List.length vs = List.length a ->
  exists k, sems a 0 = Some (vs, k) /\ sems b k = Some (ws, n).
Proof.
  rewrite sems_app. destruct (sems a 0) as [[xs k]|] eqn:EA; [|discriminate]. destruct (sems b k) as [[ys m]|] eqn:EB; [|discriminate].
  intros E L. injection E as E <-. apply sems_length in EA as LA. 
  assert (xs = vs /\ ys = ws) as [-> ->]; [|eauto].
  clear -E L LA. assert (LL : List.length xs = List.length vs) by congruence. clear L LA. revert vs E LL.
  induction xs as [|x xs IH]; intros [|v vs] E LL; try discriminate LL; [auto|]. cbn [app] in E. injection E as -> E.
  destruct (IH vs E) as [-> ->]; [|auto]. now injection LL.
Qed.

(** ** Positions *)
Definition starts (ts : list token) : list (Z * Z) := map (fun t => (fl (t_pos t), fc (t_pos t))) ts.
Definition last_pos (ts : list token) : Z * Z * Z * Z :=
  match rev ts with [] => (0, 0, 0, 0)%Z | t :: _ => (fl (t_pos t), fc (t_pos t), ll (t_pos t), lc (t_pos t)) end.
Definition starts_at (l : loc) (t : tree) : Prop :=
  solid t = true -> exists k r, yield t = k :: r /\ l_fl l = fl (t_pos k) /\ l_fc l = fc (t_pos k).

(** ** The invariant *)
Record ent (x : entry) (t : tree) : Prop := {
  en_tree : derives (sym x) t;
  en_type : typed_entry x;
  en_leaf : forall k, t = Leaf k -> erase (s_val x) = token_val k;
  en_loc : starts_at (s_loc x) t }.
Definition carriers : list N := [S_column_def; S_table_elem; S_table_elem_commalist].
Definition carrier (X : N) : bool := existsb (N.eqb X) carriers.
(** A message, located at the start of a token of [ts]. *)
Definition err_at (ts : list token) (e : env) : Prop :=
  e_valid e = false /\ (exists a s, e_msg e = VStr a s) /\
  exists l c, In (l, c) (starts ts) /\ e_line e = VInt l /\ e_col e = VInt c.
Definition no_input (x : entry) : Prop := sym x <> S_input.
(** Before the last action. *)
Record early (e0 e : env) (ents : list entry) (trees : list tree) : Prop := {
  ea_ents : Forall no_input ents;
  ea_stmts : e_stmts e = e_stmts e0;
  ea_params : e_params e = e_params e0;
  ea_cp : forall q, cps q (map s_val ents) = listed e q;
  ea_sem : e_msg e = VNull -> sems trees 0 = Some (map erase (map s_val ents), List.length (e_plist e));
  ea_bad : e_msg e <> VNull -> sems trees 0 = None }.
(** The statements of the derivation [tl] are in the result. *)
Record result_of (e0 : env) (tl : tree) (e : env) : Prop := {
  ro_stmts : exists l, e_stmts e = e_stmts e0 ++ l /\ wtl l TFinal /\ sem tl 0 = Some (VVec 0 (map erase l), List.length (e_plist e)) /\
    numbereds (Z.of_nat (List.length (e_plist e))) l /\ (forall q, cps q l = listed_in (e_plist e) q);
  ro_params : e_params e = e_params e0 ++ numbers (e_plist e) 0 }.
(** After it. *)
Definition late (e0 : env) (p : pstate) (trees : list tree) : Prop :=
  exists tl ts rest, trees = Node 2 [tl; ts] :: rest /\ e_msg (p_env p) = VNull /\ result_of e0 tl (p_env p) /\
    (rest = [] \/ (exists k, rest = [Leaf k] /\ sym_of k = 0%N) /\ p_toks p = [] /\ p_look p = None).
Record inv (ts0 : list token) (e0 : env) (B : N -> nat) (p : pstate) (ents : list entry) (b : entry) (trees : list tree)
  (lk : list token) (lost : N -> nat) : Prop := {
  i_ctl : ctl p;
  i_stk : p_stk p = rev ents ++ [b];
  i_ents : Forall2 ent ents trees;
  i_look : look_ok (p_look p) lk;
  i_toks : yields trees ++ lk ++ p_toks p = ts0;
  i_pos : (fl (e_lpos (p_env p)), fc (e_lpos (p_env p)), ll (e_lpos (p_env p)), lc (e_lpos (p_env p))) = last_pos (yields trees ++ lk);
  i_heap : heap (p_env p) (fun x => cas x (map s_val ents) + lca x (p_look p) + ca x (e_msg (p_env p)) +
                                    cas x (e_stmts (p_env p)) + lost x + B x);
  i_first : yields trees ++ lk = [] -> ents = [];
  i_lost : e_msg (p_env p) = VNull -> lost_blocks lost (leak_sum trees);
  i_msg : err_eq e0 (p_env p) \/ (err_at ts0 (p_env p) /\ existsb carrier (map sym ents) = true);
  i_phase : early e0 (p_env p) ents trees \/ late e0 p trees }.

Lemma last_pos_In (ts : list token) t r : rev ts = t :: r -> In t ts.
Proof. intro E. apply in_rev. rewrite E. now left. Qed.
Lemma err_eq_trans a b c : err_eq a b -> err_eq b c -> err_eq a c.
Proof. unfold err_eq. intuition congruence. Qed.
Lemma yields_app a b : yields (a ++ b) = yields a ++ yields b.
Proof. unfold yields. apply flat_map_app. Qed.
Lemma inv_init ts0 e0 B : ends_eof ts0 -> heap e0 (fun x => cas x (e_stmts e0) + B x) -> e_msg e0 = VNull ->
  inv ts0 e0 B (parse_init ts0 e0) [] bottom [] [] (fun _ => 0).
Proof.
  intros EE H M. constructor; cbn [p_stk p_look p_toks p_env parse_init]; try reflexivity.
  - apply ctl_init. exact EE.
  - constructor.
  - unfold parse_env. cbn [e_msg set_plist set_lpos e_stmts]. rewrite M. eapply heap_ext with (f := fun x => cas x (e_stmts e0) + B x); [destruct H; constructor; assumption|]. intro x. cbn. lia.
  - intros _. exact lost_blocks_none.
  - left. repeat split.
  - left. constructor; try reflexivity; [constructor| |intro NM; exfalso; apply NM; exact M]. intro q. unfold listed. cbn [parse_env set_plist e_plist map cps].
    destruct (Z.to_nat (snd q)); destruct (0 <=? snd q)%Z; reflexivity.
Qed.

(** ** Facts about the tables *)
Lemma input_facts s : (0 <= s < 656)%Z -> stos s = S_input -> s = 19%Z.
Proof.
  assert (A : forallb (fun s => negb (N.eqb (stos s) S_input) || (s =? 19)%Z) all_states = true) by (vm_compute; reflexivity).
  rewrite forallb_forall in A. intros R E. specialize (A s). rewrite E, N.eqb_refl in A. cbn [negb orb] in A. apply Z.eqb_eq, A, zrange_In. lia.
Qed.
Lemma input_preds b : In b (preds 19) -> b = 0%Z.
Proof. cbn. intros [<-|[]]. reflexivity. Qed.
Lemma input_succ s : (0 <= s < 656)%Z -> In 19%Z (preds s) -> s = YYFINAL.
Proof.
  assert (A : forallb (fun s => negb (memZ 19 (preds s)) || (s =? YYFINAL)%Z) all_states = true) by (vm_compute; reflexivity).
  rewrite forallb_forall in A. intros R E. apply memZ_In in E. specialize (A s). rewrite E in A. cbn [negb orb] in A. apply Z.eqb_eq, A, zrange_In. lia.
Qed.
Lemma code_range t : (0 <= code_of t)%Z.
Proof. unfold code_of; destruct (Z.leb_spec (t_code t) 0); lia. Qed.
Lemma input_no_reduce l lk r : look_ok l lk -> decide 19 (tok_of l) = Some (DReduce r) -> False.
Proof.
  assert (A : forallb (fun t => match decide 19 (Some t) with Some (DReduce _) => false | _ => true end) all_tokens = true) by (vm_compute; reflexivity).
  rewrite forallb_forall in A. intros L D. destruct l as [[c v]|]; [|vm_compute in D; discriminate D].
  destruct lk as [|t []]; try destruct L. subst c. cbn [tok_of] in D.
  destruct (yytranslate_range (@code_range t)) as (y & E & R & _). rewrite E in D. specialize (A y). rewrite D in A. discriminate A.
  apply zrange_In. lia.
Qed.
