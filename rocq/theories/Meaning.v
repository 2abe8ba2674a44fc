(** Specification: what an input means.  [means ts l n]: the tokens [ts] have a derivation that respects the operator precedences,
    fits into the parser stack (198 entries besides the bottom entry and the end of input), and denotes the statements [l]
    (addresses and stringLength forgotten) with [n] parameters.  No code of /repo. *)
From Verif Require Export Verdict PrecSound.
From Coq Require Import ZifyBool ZifyNat ZifyN.
Local Open Scope nat_scope.
Set Implicit Arguments.
Unset Strict Implicit.

(** The tree [Node 2 [stmts; semi]] is a derivation of input -> statement_list opt_semicolon. *)
Definition parses_as (ts : list token) (stmts semi : tree) (eof : token) : Prop :=
  derives S_input (Node 2 [stmts; semi]) /\ yield (Node 2 [stmts; semi]) ++ [eof] = ts /\ sym_of eof = 0%N /\
  respects (Node 2 [stmts; semi]) 0 = true /\ need (Node 2 [stmts; semi]) <= 198.
Definition means (ts : list token) (l : list val) (n : nat) : Prop :=
  exists stmts semi eof, parses_as ts stmts semi eof /\ sem stmts 0 = Some (VVec 0 l, n).

Lemma parses_recognises ts tl semi k : ends_eof ts -> (recognises ts (Node 2 [tl; semi]) k <-> parses_as ts tl semi k).
Proof. intro EE. unfold recognises, parses_as. apply recognises_iff. exact EE. Qed.
Lemma parses_unique ts a b c d k l : ends_eof ts -> parses_as ts a b k -> parses_as ts c d l -> a = c /\ b = d /\ k = l.
Proof.
  intros EE P Q. apply (parses_recognises _ _ _ EE) in P, Q. destruct (recognises_det P Q) as [E ->]. injection E as <- <-. auto.
Qed.
Lemma means_unique ts l n l' n' : ends_eof ts -> means ts l n -> means ts l' n' -> l = l' /\ n = n'.
Proof. intros EE (a & b & k & P & S) (c & d & k' & P' & S'). destruct (parses_unique EE P P') as (<- & <- & <-). rewrite S in S'. injection S' as <- <-. auto. Qed.

Section Parse.
Variables (buf0 sql : bytes) (ts : list token) (e0 : env) (B : N -> nat).
Hypothesis T : tokens sql ts.
Hypothesis M0 : e_msg e0 = VNull.
Hypothesis P0 : e_params e0 = [].
Hypothesis H0 : heap e0 (fun x => cas x (e_stmts e0) + B x).
Lemma parse_eq : ends_eof ts /\ Forall tok_ok ts /\ parse buf0 sql e0 = match yyparse ts e0 with PRet r e' => PRet r (set_valid (r =? 0)%Z e') | o => o end.
Proof.
  destruct (tokens_total sql) as (ts' & T' & EE & TO & LB). unfold tokens in *. rewrite T in T'. injection T' as <-. split; [exact EE|]. split; [exact TO|]. unfold parse. now rewrite LB.
Qed.
(** The outcome of a parse: accepted with exactly this meaning. *)
Definition accepts_with (o : parse_out) (l : list val) (n : nat) : Prop :=
  exists e l', o = PRet 0 e /\ e_valid e = true /\ e_stmts e = e_stmts e0 ++ l' /\ map erase l' = l /\ List.length (e_params e) = n.
Lemma numbers_length ps : forall i, List.length (numbers ps i) = List.length ps.
Proof. induction ps as [|a ps IH]; intro i; [reflexivity|]. cbn [numbers List.length]. now rewrite IH. Qed.
Theorem parse_means l n : accepts_with (parse buf0 sql e0) l n <-> means ts l n.
Proof.
  destruct parse_eq as (EE & TO & PE). rewrite PE. split.
  - intros (e & l' & E & V & ES & EM & EN). destruct (yyparse ts e0) as [r e1|u|] eqn:Y; try discriminate E. injection E as -> <-.
    destruct (yyparse_recognises TO M0 P0 EE H0 Y) as (tl & semi & k & R & _ & AC). apply (parses_recognises _ _ _ EE) in R. exists tl, semi, k. split; [exact R|].
    destruct AC as (lost & _ & _ & _ & _ & [RS RP] & _). destruct RS as (l2 & E2 & _ & S & _). cbn [set_valid e_stmts e_params] in *.
    rewrite E2 in ES. apply app_inv_head in ES. subst l2. rewrite EM in S. rewrite S. rewrite RP, P0 in EN. cbn [app] in EN. rewrite numbers_length in EN. now rewrite EN.
  - intros (tl & semi & k & P & S). assert (R : recognises ts (Node 2 [tl; semi]) k) by (apply (parses_recognises _ _ _ EE); exact P).
    destruct (yyparse_accepts TO M0 P0 EE H0 R) as (e & E & AC). { eapply sem_input; [apply P|exact S]. }
    rewrite E. destruct AC as (lost & _ & _ & _ & _ & [RS RP] & _). destruct RS as (l2 & E2 & _ & S2 & _). rewrite S in S2. injection S2 as E3 E4.
    exists (set_valid true e), l2. cbn [set_valid e_stmts e_params e_valid]. split; [reflexivity|]. split; [reflexivity|]. split; [exact E2|]. split; [now symmetry|]. rewrite RP, P0. cbn [app]. now rewrite numbers_length.
Qed.
Theorem parse_valid r e : parse buf0 sql e0 = PRet r e -> (e_valid e = true <-> exists l n, means ts l n).
Proof.
  intro E. split.
  - intro V. destruct parse_eq as (EE & TO & PE). rewrite PE in E. destruct (yyparse ts e0) as [r1 e1|u|] eqn:Y; try discriminate E. injection E as <- <-. cbn [set_valid e_valid] in V.
    assert (r1 = 0)%Z as -> by lia. destruct (yyparse_recognises TO M0 P0 EE H0 Y) as (tl & semi & k & R & _ & AC). apply (parses_recognises _ _ _ EE) in R.
    destruct AC as (lost & _ & _ & _ & _ & [RS RP] & _). destruct RS as (l2 & E2 & _ & S & _). eexists _, _. exists tl, semi, k. split; [exact R|exact S].
  - intros (l & n & M). apply parse_means in M. destruct M as (e' & l' & E' & V & _). rewrite E in E'. injection E' as _ <-. exact V.
Qed.
End Parse.
