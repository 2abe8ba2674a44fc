(** Whether an input is accepted depends on its tokens only: the run of the machine of Abs.v and the semantic checks decide.
    No code of /repo. *)
From Verif Require Export ParseProof.
From Verif Require Import ParamProof.
From Coq Require Import ZifyBool ZifyNat ZifyN.
Local Open Scope nat_scope.
Set Implicit Arguments.
Unset Strict Implicit.

(** ** A failed semantic check stays failed *)
Lemma sems_none_app a b k : sems a k = None -> sems (a ++ b) k = None.
Proof. intro E. rewrite sems_app, E. reflexivity. Qed.
Lemma sems_none_node l r ts k : sems (l ++ ts) k = None -> sems (l ++ [Node r ts]) k = None.
Proof.
  rewrite !sems_app. destruct (sems l k) as [[vs k1]|]; [|reflexivity]. cbn [sems]. rewrite sem_node. destruct (sems ts k1) as [[ws k2]|]; [discriminate|reflexivity].
Qed.
Lemma astep_sems a b : astep a = ACont b -> sems (atrees a) 0 = None -> sems (atrees b) 0 = None.
Proof.
  destruct a as [stk lk toks]. unfold astep. cbn [a_stk a_look a_toks]. destruct (199 <=? _); [discriminate|]. destruct (_ =? YYFINAL)%Z; [discriminate|].
  destruct (decide _ _) as [[|s'|r|]|]; try discriminate.
  - destruct toks; [discriminate|]. intros E N. injection E as <-. exact N.
  - destruct lk; [|discriminate]. intros E N. injection E as <-. rewrite atrees_cons. now apply sems_none_app.
  - destruct (production _) as [[lhs rhs]|]; [|discriminate]. destruct (goto_of _ _); [|discriminate]. intros E N. injection E as <-.
    rewrite (atrees_split (List.length rhs)) in N. rewrite atrees_cons. apply sems_none_node. exact N.
Qed.
Lemma asteps_sems a b : asteps a b -> sems (atrees a) 0 = None -> sems (atrees b) 0 = None.
Proof. induction 1 as [a|a x b E H IH]; intro N; [exact N|]. apply IH. eapply astep_sems; eassumption. Qed.

(** ** The verdict *)
(** The machine accepts [ts], building the tree [t] (without the end-of-input token). *)
Definition recognises (ts : list token) (t : tree) (eof : token) : Prop :=
  exists a, asteps (astart ts) a /\ astep a = AAccept /\ atrees a = [t; Leaf eof].
Lemma recognises_det ts t u k l : recognises ts t k -> recognises ts u l -> t = u /\ k = l.
Proof.
  intros (a & A1 & A2 & A3) (b & B1 & B2 & B3). assert (E : a = b) by (eapply asteps_end; [exact A1|exact B1|rewrite A2; discriminate|rewrite B2; discriminate]).
  subst b. rewrite A3 in B3. injection B3 as <- <-. auto.
Qed.
Lemma sem_semi X t k : derives X t -> X = S_opt_semicolon -> exists v, sem t k = Some (v, k).
Proof.
  intros D E. assert (A : forallb (fun p => negb (N.eqb (fst (snd p)) S_opt_semicolon) || match snd (snd p) with [] => true | [X] => N.eqb X S_semi | _ => false end && match fst p with 354 | 355 => true | _ => false end)%N GrammarDef.grammar = true) by (vm_compute; reflexivity).
  rewrite forallb_forall in A. destruct D as [t|r lhs rhs ts P DL]; [cbn; eauto|]. subst lhs. specialize (A _ (production_In P)). cbn [fst snd] in A. rewrite N.eqb_refl in A. cbn [negb orb] in A.
  apply andb_true_iff in A as [A1 A2]. rewrite sem_node. assert (exists vs, sems ts k = Some (vs, k)) as (vs & ->).
  { destruct rhs as [|Y [|]]; try discriminate A1; inversion DL as [|? ? ? ? D1 DL1]; subst; [cbn; eauto|]. inversion DL1; subst. apply N.eqb_eq in A1. subst Y.
    destruct (derives_terminal D1) as (k0 & -> & _); [reflexivity|]. cbn. eauto. }
  assert (r = 354 \/ r = 355)%N as [-> | ->]. { clear -A2. destruct r as [|p]; [discriminate|]. do 9 (destruct p as [p|p|]; try discriminate A2; auto). }
  - cbn. eauto.
  - cbn. eauto.
Qed.
Section Verdict.
Variables (ts : list token) (e0 : env) (B : N -> nat).
Hypothesis OK0 : Forall tok_ok ts.
Hypothesis M0 : e_msg e0 = VNull.
Hypothesis P0 : e_params e0 = [].
Hypothesis EE : ends_eof ts.
Hypothesis H0 : heap e0 (fun x => cas x (e_stmts e0) + B x).
Lemma yyparse_accepts tl semi k : recognises ts (Node 2 [tl; semi]) k -> sem (Node 2 [tl; semi]) 0 <> None ->
  exists e, yyparse ts e0 = PRet 0 e /\ accepted_as tl semi k ts e0 B e.
Proof.
  intros (a & A1 & A2 & A3) S.
  destruct (yyparse_explained OK0 M0 P0 EE H0) as (b & B1 & X).
  assert (N : forall b', astep b = ACont b' -> sems (atrees b') 0 = None -> sems (atrees a) 0 = None).
  { intros b' E N. assert (BB : asteps (astart ts) b') by (eapply asteps_trans; [exact B1|now apply asteps_one]).
    destruct (asteps_det A1 BB) as [Z|Z]; [|eapply asteps_sems; eassumption]. inversion Z as [|? ? ? E2]; subst; [exact N|rewrite A2 in E2; discriminate]. }
  assert (T : (forall x, astep b <> ACont x) -> a = b) by (intro NB; eapply asteps_end; [exact A1|exact B1|rewrite A2; discriminate|exact NB]).
  assert (NS : sems (atrees a) 0 <> None).
  { rewrite A3. cbn [sems]. destruct (sem (Node 2 [tl; semi]) 0) as [[v n]|]; [discriminate|now destruct S]. }
  destruct (yyparse ts e0) as [r e|u|].
  - destruct X as [(-> & A & tl' & semi' & k' & AC & E)|(_ & _ & W)].
    + assert (a = b) by (apply T; rewrite A; discriminate). subst b. rewrite A3 in E. injection E as <- <- <-. eauto.
    + exfalso. destruct W as [(_ & W & _)|[(_ & W & _)|(_ & b' & W & W2)]].
      * assert (a = b) by (apply T; rewrite W; discriminate). subst b. rewrite A2 in W. discriminate.
      * assert (a = b) by (apply T; rewrite W; discriminate). subst b. rewrite A2 in W. discriminate.
      * apply NS. eapply N; eassumption.
  - exfalso. destruct X as (_ & b' & W & W2). apply NS. eapply N; eassumption.
  - destruct X.
Qed.
Lemma sem_input tl semi v n : derives S_input (Node 2 [tl; semi]) -> sem tl 0 = Some (v, n) -> sem (Node 2 [tl; semi]) 0 <> None.
Proof.
  intros D S. inversion D as [|? ? ? ? P DL]; subst. rewrite production_2 in P. injection P as <-. inversion DL as [|? ? ? ? _ DL1]; subst. inversion DL1 as [|? ? ? ? D2 _]; subst.
  rewrite sem_node. cbn [sems]. rewrite S. destruct (sem_semi n D2 eq_refl) as (w & ->). cbn. discriminate.
Qed.
Lemma yyparse_recognises e : yyparse ts e0 = PRet 0 e ->
  exists tl semi k, recognises ts (Node 2 [tl; semi]) k /\ sem (Node 2 [tl; semi]) 0 <> None /\ accepted_as tl semi k ts e0 B e.
Proof.
  intro E. destruct (yyparse_explained OK0 M0 P0 EE H0) as (a & A & X). rewrite E in X. destruct X as [(_ & AA & tl & semi & k & AC & T)|([F|F] & _)]; [|discriminate F..].
  exists tl, semi, k. split; [exists a; auto|]. split; [|exact AC]. destruct AC as (lost & D & _ & _ & _ & [(l & _ & _ & S & _) _] & _). eapply sem_input; eassumption.
Qed.
End Verdict.
