(** parse as a whole: scanner, parser, result object.  No code of /repo. *)
From Verif Require Export Base TokenCodes LexModel Ast Heap Actions ParseModel Api Grammar Driver Typing Own Sem Poke InvRun LexProof LexMatch LexTotal LexPos.
From Coq Require Import ZifyBool ZifyNat ZifyN.
Local Open Scope nat_scope.
Set Implicit Arguments.
Unset Strict Implicit.

(** The tokens of an input. *)
Definition tokens (sql : bytes) (ts : list token) : Prop := lex_all [] sql = Some ts.

(** ** The leftover of the thread-local string buffer does not matter *)
Definition same_lex (a b : lexst) : Prop := lx_start a = lx_start b /\ lx_pos a = lx_pos b /\ (lx_start a = 3%Z -> lx_buf a = lx_buf b).
Definition code_rule_ok (p : Z * (LexSpec.where_ * Regex.rx)) : bool :=
  match fst (snd p) with LexSpec.StringOnly => true | _ => negb ((185 <=? fst p)%Z && (fst p <=? 187)%Z) end.
Lemma code_rules_ok : forallb code_rule_ok LexSpec.flex_rules = true.
Proof. vm_compute. reflexivity. Qed.
Lemma code_rule s r w : matched (active s) r w -> (s <> 3)%Z -> ~ (185 <= r <= 187)%Z.
Proof.
  intros (x & I & _) S. apply active_In in I as (w' & I & F). pose proof (proj1 (forallb_forall code_rule_ok LexSpec.flex_rules) code_rules_ok _ I) as A.
  unfold code_rule_ok in A. cbn [fst snd] in A. destruct w'; cbn [applies] in F; lia.
Qed.
Lemma run_rule_buf r t a b : same_lex a b -> (lx_start a = 3 \/ ~ (185 <= r <= 187))%Z ->
  match run_rule r t a, run_rule r t b with
  | Skip a', Skip b' => same_lex a' b'
  | Ret c v a', Ret c' v' b' => c = c' /\ v = v' /\ same_lex a' b'
  | _, _ => False
  end.
Proof.
  destruct a as [sa ba pa], b as [sb bb pb]. unfold same_lex. cbn [lx_start lx_buf lx_pos]. intros (E1 & E2 & E3) O. subst sb pb.
  destruct (Z.eq_dec sa 3) as [S3|S3].
  - rewrite <- (E3 S3). destruct (run_rule r t _); repeat split; auto.
  - destruct O as [O|O]; [contradiction|]. unfold run_rule. cbn [lx_start lx_buf lx_pos].
    rule_cases; cbn [lx_start lx_buf lx_pos]; try (repeat split; auto; lia).
    + destruct (strtoll0 t); cbn [lx_start lx_buf lx_pos]; repeat split; auto.
    + destruct (token_rule r); cbn [lx_start lx_buf lx_pos]; repeat split; auto.
Qed.
Lemma lex_from_buf : forall a rest, is_start (lx_start a) -> ~ In NUL rest -> forall b len0, same_lex a b -> lex_from a len0 rest = lex_from b len0 rest.
Proof.
  intros a rest S N. refine (@lex_ind (fun a rest => forall b len0, same_lex a b -> lex_from a len0 rest = lex_from b len0 rest) _ a rest S N).
  clear. intros a rest S N IH b len0 SL. assert (Sb : is_start (lx_start b)) by (destruct SL as [<- _]; exact S).
  rewrite (lex_from_eq len0 S N), (lex_from_eq len0 Sb N). pose proof SL as (E1 & E2 & E3).
  destruct rest as [|c0 rest0]; [unfold lex_step; rewrite (lex_match_eof S), (lex_match_eof Sb), E2; reflexivity|].
  assert (NE : c0 :: rest0 <> []) by discriminate. destruct (lex_match_best S N NE) as (r & n & E & B & L & R). remember (c0 :: rest0) as rest.
  unfold lex_step. rewrite <- E1, E.
  assert (O : (lx_start a = 3 \/ ~ (185 <= r <= 187))%Z).
  { destruct (Z.eq_dec (lx_start a) 3) as [|NS]; [now left|]. right. destruct B as (_ & M & _). eapply code_rule; eassumption. }
  pose proof (run_rule_buf (firstn n rest) SL O) as RB. pose proof (run_rule_ok r (firstn n rest) S) as OK.
  destruct (run_rule r (firstn n rest) a) as [a'|c v a'], (run_rule r (firstn n rest) b) as [b'|c' v' b']; try contradiction.
  - apply IH; auto. apply OK.
  - destruct RB as (<- & <- & SL'). destruct SL' as (F1 & F2 & F3). rewrite <- F2. cbn zeta. destruct (c <=? 0)%Z; [reflexivity|].
    rewrite (@IH a' n L (proj1 OK) NE b' (slen (lx_pos a')) (conj F1 (conj F2 F3))). reflexivity.
Qed.
Lemma lex_all_buf buf0 sql : lex_all buf0 sql = lex_all [] sql.
Proof.
  unfold lex_all. apply (@lex_from_buf (lex_init buf0) (c_string sql)); [left; reflexivity|apply c_string_NUL|]. repeat split; cbn. discriminate.
Qed.
Lemma tokens_total sql : exists ts, tokens sql ts /\ ends_eof ts /\ Forall tok_ok ts /\ (forall buf0, lex_all buf0 sql = Some ts).
Proof. destruct (lex_all_total [] sql) as (ts & E & A & B). exists ts. repeat split; auto. intro. now rewrite lex_all_buf. Qed.
Lemma lex_from_count : forall st rest, is_start (lx_start st) -> ~ In NUL rest -> forall len0 ts, lex_from st len0 rest = Some ts -> List.length ts <= List.length rest + 1.
Proof.
  intros st rest S0 N0. refine (@lex_ind (fun st rest => forall len0 ts, lex_from st len0 rest = Some ts -> List.length ts <= List.length rest + 1) _ st rest S0 N0).
  clear. intros st rest ST N IH len0 ts EQ. rewrite (lex_from_eq len0 ST N) in EQ.
  destruct (lex_step_total ST N) as [[-> E]|(r & n & B & L1 & R & E)]; rewrite E in EQ; [cbn in EQ; injection EQ as <-; cbn; lia|].
  assert (NE : rest <> []) by (intros ->; cbn in L1; lia).
  pose proof (run_rule_ok r (firstn n rest) ST) as P. destruct (run_rule r (firstn n rest) st) as [st'|c v st'].
  - apply (@IH st' n) in EQ; [|lia|apply P|exact NE]. rewrite skipn_length in EQ. lia.
  - cbn zeta in EQ. destruct (c <=? 0)%Z; [injection EQ as <-; cbn; lia|]. destruct (lex_from st' _ _) as [ts'|] eqn:ET; [|discriminate]. cbn [obind] in EQ. injection EQ as <-.
    apply (@IH st' n) in ET; [|lia|apply P|exact NE]. rewrite skipn_length in ET. cbn [List.length]. lia.
Qed.
Lemma tokens_count sql ts : tokens sql ts -> List.length ts <= List.length sql + 1.
Proof.
  unfold tokens, lex_all. intro H. apply (@lex_from_count (lex_init []) (c_string sql)) in H; [|left; reflexivity|apply c_string_NUL].
  assert (List.length (c_string sql) <= List.length sql); [|lia]. clear. induction sql as [|c sql IH]; cbn [c_string List.length]; [lia|]. destruct (byte_eqb c NUL); cbn [List.length]; lia.
Qed.

(** ** parse *)
Lemma heap_env e e' F : e_live e' = e_live e -> e_next e' = e_next e -> heap e F -> heap e' F.
Proof. intros E1 E2 [A B C]. constructor; rewrite ?E1, ?E2; assumption. Qed.
Definition parse_outcome (ts : list token) (e0 : env) (B : N -> nat) (o : parse_out) : Prop :=
  match o with
  | PRet r e => r = 0%Z /\ e_valid e = true /\ (exists e1, e = set_valid true e1 /\ accepted ts e0 B e1) \/
                r <> 0%Z /\ e_valid e = false /\ (exists e1, e = set_valid false e1 /\ rejected ts e0 B e1)
  | PUB u => interval_overflow ts u
  | PFuel => False
  end.
Theorem parse_inv buf0 sql ts e0 B : tokens sql ts -> e_msg e0 = VNull -> e_params e0 = [] ->
  heap e0 (fun x => cas x (e_stmts e0) + B x) -> parse_outcome ts e0 B (parse buf0 sql e0).
Proof.
  intros T M P H. destruct (tokens_total sql) as (ts' & T' & EE & TO & LB). unfold tokens in *. rewrite T in T'. injection T' as <-.
  pose proof (yyparse_inv TO M P EE H) as O. unfold parse. rewrite LB. destruct (yyparse ts e0) as [r e|u|]; cbn [outcome parse_outcome] in *; [|exact O|exact O].
  destruct O as [[-> A]|[R J]]; [left|right].
  - repeat split; eauto.
  - assert (r <> 0)%Z by lia. assert (Q : (r =? 0)%Z = false) by lia. rewrite Q. repeat split; eauto.
Qed.
Lemma heap_fresh : heap fresh_env (fun _ => 0).
Proof. constructor; intro x; cbn; lia. Qed.
Corollary parse_fresh buf0 sql ts : tokens sql ts -> parse_outcome ts fresh_env (fun _ => 0) (parse buf0 sql fresh_env).
Proof. intro T. apply parse_inv; auto. eapply heap_ext; [apply heap_fresh|reflexivity]. Qed.

(** ** Destroying the result *)
Lemma final_del : del_ty TFinal = true. Proof. vm_compute. reflexivity. Qed.
Lemma free_msg v : (v = VNull \/ exists a s, v = VStr a s) -> frees (free_ v) (fun x => ca x v).
Proof. intros [->|(a & s & ->)]; [apply frees_ret; reflexivity|apply frees_release]. Qed.
(** A result in order: its statements are complete, its message is a string or null. *)
Definition sound_result (r : result) : Prop := wtl (r_stmts r) TFinal /\ (r_msg r = VNull \/ exists a s, r_msg r = VStr a s).
Definition owned (r : result) (x : N) : nat := cas x (r_stmts r) + ca x (r_msg r).
Lemma reset_ok r e F : sound_result r -> heap e (fun x => owned r x + F x) -> exists e', reset r e = ROk (mkRes false [] VNull (VInt (-1)) (VInt (-1)) (r_params r)) e' /\ heap e' F /\ same e e'.
Proof.
  intros [W M] H. unfold reset, bind. destruct (del_all_frees W final_del (e := e) (f := fun x => ca x (r_msg r) + F x)) as (e1 & E1 & H1 & S1).
  { eapply heap_ext; [exact H|]. intro x. unfold owned. lia. }
  rewrite E1. destruct (free_msg M (e := e1) (f := F)) as (e2 & E2 & H2 & S2); [exact H1|]. rewrite E2. exists e2. split; [reflexivity|]. split; [exact H2|]. eapply same_trans; eassumption.
Qed.
Lemma heap_empty e : heap e (fun _ => 0) -> e_live e = [].
Proof. intros [L _ _]. destruct (e_live e) as [|a l]; [reflexivity|]. specialize (L a). cbn [cntN] in L. rewrite ind_refl in L. lia. Qed.
Lemma destroy_ok e F : sound_result (the_result e) -> heap e (fun x => owned (the_result e) x + F x) -> exists e', destroy (the_result e) e = ROk tt e' /\ heap e' F.
Proof. intros S H. destruct (reset_ok S H) as (e' & E & H' & _). exists e'. unfold destroy, bind. rewrite E. auto. Qed.
Lemma wtl_nil_final : wtl [] TFinal. Proof. constructor. Qed.
(** After a parse into a fresh result, everything the result owns can be destroyed; what remains is [lost]. *)
Lemma parse_sound buf0 sql ts r e : tokens sql ts -> parse buf0 sql fresh_env = PRet r e -> sound_result (the_result e) /\
  exists lost, heap e (fun x => owned (the_result e) x + lost x) /\
    (e_valid e = true -> exists tl semi k, derives S_input (Node 2 [tl; semi]) /\ yield tl ++ yield semi ++ [k] = ts /\ sym_of k = 0%N /\
       sem tl 0 = Some (VVec 0 (map erase (e_stmts e)), List.length (e_plist e)) /\ lost_blocks lost (leak_count tl)) /\
    (e_valid e = false -> clean ts = true -> forall x, lost x = 0).
Proof.
  intros T E. pose proof (parse_fresh buf0 T) as P. rewrite E in P. cbn [parse_outcome] in P.
  destruct P as [(_ & _ & e1 & -> & (tl & semi & k & lost & D & Y & K & EQ & [RS RP] & H & L))|(_ & _ & e1 & -> & ((V & M & _) & ST & lost & H & L))].
  - destruct RS as (l & ES & WL & RS'). cbn [e_stmts fresh_env app] in ES. destruct EQ as (_ & EM & _). cbn [e_msg fresh_env] in EM. unfold sound_result, the_result, owned. cbn [r_stmts r_msg set_valid e_stmts e_msg].
    rewrite ES in *. destruct RS' as (SM & _).
    split; [split; [exact WL|now left]|]. exists lost. split; [|split; [|discriminate]]; [|intros _; exists tl, semi, k; auto]. rewrite EM. apply (@heap_env e1); [reflexivity|reflexivity|]. eapply heap_ext; [exact H|]. intro x. cbn [ca]. lia.
  - assert (W : wtl (e_stmts e1) TFinal).
    { destruct ST as [[-> _]|(tl & semi & rest & _ & _ & [RS _])]; [constructor|]. destruct RS as (l & ES & WL & _). cbn [e_stmts fresh_env app] in ES. now rewrite ES. }
    unfold sound_result, the_result, owned. cbn [r_stmts r_msg set_valid e_stmts e_msg]. split; [split; [exact W|now right]|]. exists lost. split; [|split; [discriminate|auto]].
    apply (@heap_env e1); [reflexivity|reflexivity|]. eapply heap_ext; [exact H|]. intro x. cbn beta. lia.
Qed.
