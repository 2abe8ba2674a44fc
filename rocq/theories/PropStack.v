(** Property C70: the stacks of the parser never leave their arrays of 200 elements. *)
From Verif Require Import Script PropParse PropError PropLength LexProof Prefix Cause Stacks StackProof.
From Verif Require Import Base LexModel Ast Heap Actions ParseModel Api.
Set Implicit Arguments.
Unset Strict Implicit.

(** On every sequence of tokens and every result object the parser with checked arrays does what the parser model does, including the outcome
    "outside a table or array" (UTable)... *)
Theorem C70_arrays_are_a_stack : forall ts e, cyyparse ts e = yyparse ts e.
Proof. exact cyyparse_same. Qed.
(** ...which never happens: on the tokens of a text the parser with checked arrays returns, or gives an overlong INTERVAL number to sscanf (C57). *)
Theorem C70_never_outside : forall sql ts, tokens sql ts -> (exists r e, cyyparse ts fresh_env = PRet r e) \/ cyyparse ts fresh_env = PUB UScanf.
Proof.
  intros sql ts T. rewrite C70_arrays_are_a_stack. pose proof (parse_fresh [] T) as O. destruct (tokens_end T) as (_ & _ & LB). unfold parse in O. rewrite LB in O.
  destruct (yyparse ts fresh_env) as [r1 e1|u|]; cbn [parse_outcome] in O; [left; eauto|right; destruct O as [-> _]; reflexivity|contradiction].
Qed.
(** The result of parse is the one computed with the arrays. *)
Theorem C70_parse : forall buf0 sql ts e0, tokens sql ts -> forall r e, parse buf0 sql e0 = PRet r e -> exists e1, cyyparse ts e0 = PRet r e1.
Proof.
  intros buf0 sql ts e0 T r e P. destruct (tokens_end T) as (_ & _ & LB). unfold parse in P. rewrite LB in P. rewrite C70_arrays_are_a_stack. destruct (yyparse ts e0) as [r1 e1|u|]; [injection P as -> <-; eauto|discriminate..].
Qed.

(** With one cell less the same text would leave the arrays: the check [yyss + yystacksize - 1 <= yyssp] is as late as it can be.
    Here the index has reached 199, the last cell of the arrays, and the parser gives up (C29). *)
Fixpoint crounds (n : nat) (c : cstate) : option cstate := match n with O => Some c | S n' => match cstep c with CCont c' => crounds n' c' | _ => None end end.
Definition deep_tokens : list token := match lex_all [] (la "SELECT " ++ repeat "("%char 198) with Some ts => ts | None => [] end.
Example C70_example : match cinit deep_tokens fresh_env with
  | Some c => match crounds 395 c with Some c' => c_sp c' = 199%nat /\ (exists e, cstep c' = CStop 2 e) | None => False end
  | None => False end.
Proof. vm_compute. split; [reflexivity|eexists; reflexivity]. Qed.
