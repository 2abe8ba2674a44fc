(** Checking concrete derivation trees.  No code of /repo. *)
From Verif Require Export Relabel.
From Coq Require Import ZifyBool ZifyNat ZifyN.
Local Open Scope nat_scope.
Set Implicit Arguments.
Unset Strict Implicit.

Definition Ns_eqb (a b : list N) : bool := (List.length a =? List.length b) && forallb (fun p => N.eqb (fst p) (snd p)) (combine a b).
Lemma Ns_eqb_eq a : forall b, Ns_eqb a b = true -> a = b.
Proof.
  unfold Ns_eqb. induction a as [|x a IH]; intros [|y b] E; cbn [List.length combine forallb fst snd] in E; try discriminate E; [reflexivity|].
  apply andb_true_iff in E as [E1 E2]. apply andb_true_iff in E2 as [E2 E3]. apply N.eqb_eq in E2. subst y. f_equal. apply IH. rewrite E3, andb_true_r. lia.
Qed.
(** The symbol a tree derives from. *)
Definition head (t : tree) : N := match t with Leaf k => sym_of k | Node r _ => match production r with Some (lhs, _) => lhs | None => 0%N end end.
Fixpoint wf (t : tree) : bool :=
  match t with
  | Leaf _ => true
  | Node r ts => match production r with
                 | Some (_, rhs) => Ns_eqb rhs (map head ts) && forallb wf ts
                 | None => false
                 end
  end.
Lemma wf_derives t : wf t = true -> derives (head t) t.
Proof.
  induction t as [k|r ts IH] using tree_ind2; intro W; [constructor|]. cbn [wf head] in *. destruct (production r) as [[lhs rhs]|] eqn:P; [|discriminate].
  apply andb_true_iff in W as [W1 W2]. apply Ns_eqb_eq in W1. econstructor; [exact P|]. rewrite W1. clear P W1. induction IH as [|t ts H HF IH2]; cbn [map forallb] in *; constructor; [|apply IH2]; apply andb_true_iff in W2 as [A B]; auto.
Qed.
(** The machine run, to compute trees of examples. *)
Fixpoint arun (n : nat) (a : astate) : option (list tree) :=
  match n with O => None | S n' => match astep a with ACont b => arun n' b | AAccept => Some (atrees a) | _ => None end end.
Definition tree_of (sql : bytes) : option tree :=
  match lex_all [] sql with Some ts => match arun (40 * List.length ts + 100) (astart ts) with Some (t :: _) => Some t | _ => None end | None => None end.
