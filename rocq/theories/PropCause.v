(** Property C60: the error message names the cause.
    Vocabulary: [begins l] (Viable.v): some sentence of the grammar, followed by the end of input, begins with the tokens [l].
    [unexpected_token before t m] (PropError.v, C38): the syntax error message [m] about [t] after [before].
    [objectionable], [faulty] (Complaint.v): what is wrong with a piece of text. *)
From Verif Require Import Script PropParse PropError Overflow PropUndef Left Complaint Cause Fault.
From Verif Require Import Inv InvStep InvRun Abs Prec.
From Coq Require Import ZifyBool ZifyNat ZifyN.
Local Open Scope nat_scope.

(** A message about the token [t] after [before]. *)
Definition about_token (before : list token) (t : token) (e : env) : Prop :=
  exists adr m, e_msg e = VStr adr m /\ e_line e = VInt (fl (t_pos t)) /\ e_col e = VInt (fc (t_pos t)) /\ (m = la "memory exhausted" \/ unexpected_token before t m).
(** A message [m], located at the first of the tokens [l]. *)
Definition about_piece (l : list token) (m : bytes) (e : env) : Prop :=
  exists adr k r, e_msg e = VStr adr m /\ l = k :: r /\ e_line e = VInt (fl (t_pos k)) /\ e_col e = VInt (fc (t_pos k)).

(** A parse that fails either meets a token that cannot follow (or runs out of stack), and says so; or a piece of what it has read fails a
    check, although the pieces of that piece pass theirs, and the message is the one for that check, at the beginning of that piece. *)
Theorem C60_the_check_that_failed : forall buf0 sql ts r e, tokens sql ts -> parse buf0 sql fresh_env = PRet r e -> e_valid e = false ->
  (exists before t after, ts = before ++ t :: after /\ about_token before t e) \/
  (exists before X t after m, ts = before ++ yield t ++ after /\ begins (before ++ yield t) /\ derives X t /\ objectionable t m /\ about_piece (yield t) m e).
Proof.
  intros buf0 sql ts r e T P V. destruct (tokens_end T) as (EE & TO & LB). unfold parse in P. rewrite LB in P. destruct (yyparse ts fresh_env) as [r1 e1|u|] eqn:Y; try discriminate P. injection P as <- <-.
  cbn [set_valid e_valid] in V. assert (R1 : r1 <> 0%Z) by lia. destruct (@yyparse_cause ts fresh_env (fun _ => 0) TO eq_refl eq_refl r1 e1 EE heap_fresh Y) as (a & A & [W|(W & C)]); [contradiction|].
  pose proof (ainv_runs (asteps_runs A) (ainv_start ts)) as [_ TX _]. unfold pend in TX. rewrite app_assoc in TX.
  destruct C as [AS|[AS|TD]].
  - left. destruct W as [(_ & E & _)|[(_ & E & (x & M) & LK & AL)|(_ & a' & E & S)]]; [congruence| |congruence]. destruct (a_look a) as [t|] eqn:LA; [|congruence]. destruct AL as (l & t' & EQ & E1 & E2). unfold alook in EQ, TX. rewrite LA in EQ, TX. apply app_inj_tail in EQ as [<- <-].
    exists (yields (atrees a)), t, (a_toks a). split; [rewrite <- TX, <- app_assoc; reflexivity|]. exists x. eexists. split; [exact M|]. split; [exact E1|]. split; [exact E2|]. right. rewrite <- LA. eapply syntax_unexpected; eassumption.
  - left. destruct W as [(_ & E & (x & M) & AL)|[(_ & E & _)|(_ & a' & E & S)]]; [|congruence..]. destruct AL as (l & t & EQ & E1 & E2). exists l, t, (a_toks a). split; [rewrite <- TX, EQ, <- app_assoc; reflexivity|].
    exists x. eexists. split; [exact M|]. split; [exact E1|]. split; [exact E2|]. left. reflexivity.
  - right. destruct TD as (pre & t & post & X & m & adr & k0 & r0 & YE & D & O & M & Y0 & L & C). exists pre, X, t, (post ++ alook a ++ a_toks a), m. split; [rewrite <- TX, YE, <- !app_assoc; reflexivity|].
    split; [|split; [exact D|split; [exact O|exists adr, k0, r0; auto]]].
    assert (NE : a_stk a <> []) by (intro E; unfold atrees in YE; rewrite E in YE; cbn in YE; rewrite Y0 in YE; destruct pre; discriminate YE).
    pose proof (begins_stack _ _ A NE) as BG. rewrite YE, app_assoc in BG. exact (Viable.begins_app BG).
Qed.

(** The same, told by the tokens of the text alone. *)
Theorem C60_what_is_wrong : forall buf0 sql ts r e, tokens sql ts -> parse buf0 sql fresh_env = PRet r e -> e_valid e = false ->
  (exists before t after, ts = before ++ t :: after /\ about_token before t e) \/
  (exists before l after m, ts = before ++ l ++ after /\ begins (before ++ l) /\ faulty l m /\ about_piece l m e).
Proof.
  intros buf0 sql ts r e T P V. destruct (C60_the_check_that_failed _ _ _ _ _ T P V) as [L|(before & X & t & after & m & E & B & D & O & A)]; [now left|]. right.
  exists before, (yield t), after, m. split; [exact E|]. split; [exact B|]. split; [|exact A]. refine (fault_of T D _ O). intros k K. rewrite E, !in_app_iff. auto.
Qed.

Example C60_example_date : exists ts e adr t1 t2 rest, tokens (la "SELECT 1;  SELECT DATE 'soon'") ts /\ parse [] (la "SELECT 1;  SELECT DATE 'soon'") fresh_env = PRet 1 e /\ e_valid e = false /\
  e_msg e = VStr adr (la "Found incorrect date format. Expected format: YYYY-MM-DD") /\ e_line e = VInt 0 /\ e_col e = VInt 18 /\ ts = firstn 4 ts ++ [t1; t2] ++ rest /\
  faulty [t1; t2] (la "Found incorrect date format. Expected format: YYYY-MM-DD") /\ fl (t_pos t1) = 0%Z /\ fc (t_pos t1) = 18%Z.
Proof.
  eexists _, _, _, _, _, _. split; [vm_compute; reflexivity|]. split; [vm_compute; reflexivity|]. split; [reflexivity|]. split; [reflexivity|]. split; [reflexivity|]. split; [reflexivity|]. split; [reflexivity|].
  split; [|split; reflexivity]. eapply f_date; [reflexivity|split; reflexivity|vm_compute; reflexivity].
Qed.
Example C60_example_column : exists ts e adr ks, tokens (la "CREATE TABLE t (a INT NULL NOT NULL)") ts /\ parse [] (la "CREATE TABLE t (a INT NULL NOT NULL)") fresh_env = PRet 1 e /\ e_valid e = false /\
  e_msg e = VStr adr (la "Conflicting nullability constraints for a") /\ ks = firstn 5 (skipn 4 ts) /\ faulty ks (la "Conflicting nullability constraints for " ++ la "a").
Proof.
  eexists _, _, _, _. split; [vm_compute; reflexivity|]. split; [vm_compute; reflexivity|]. split; [reflexivity|]. split; [reflexivity|]. split; [reflexivity|].
  eapply f_column; [split; reflexivity| |].
  - eexists [_], _, [_; _]. split; [reflexivity|]. split; [reflexivity|]. intros [|a [|b l0]] n E; try discriminate E. injection E as <-. discriminate.
  - left. eexists. split; [right; right; left; reflexivity|reflexivity].
Qed.
