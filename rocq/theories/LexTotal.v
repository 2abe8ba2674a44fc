(** The scanner is total, its tokens are well formed, and its position counters are exact.  No code of /repo. *)
From Verif Require Import Base FlexTables TokenCodes LexRules LexModel Regex LexSpec LexCert TableCheck LexProof LexMatch Grammar Ast Heap Driver Typing Own Sem Inv.
From Coq Require Import ZifyBool ZifyNat ZifyN.
Local Open Scope Z_scope.
Set Implicit Arguments.
Unset Strict Implicit.

(** ** Every token carries the kind of value its symbol has *)
Definition plain_code (c : Z) : bool := match symty (sym_of_code c) with TUninit => true | _ => false end.
Lemma plain_small c : 0 <= c < 256 -> plain_code c = true.
Proof.
  assert (A : forallb plain_code (zrange 256 0) = true) by (vm_compute; reflexivity). rewrite forallb_forall in A. intro R. apply A, zrange_In. lia.
Qed.
Lemma plain_rule r c : token_rule r = Some c -> plain_code c = true /\ 0 < c.
Proof.
  assert (A : forallb (fun p => plain_code (snd p) && (0 <? snd p)) token_rules = true) by (vm_compute; reflexivity). rewrite forallb_forall in A.
  unfold token_rule. intro H. destruct (find _ token_rules) as [p|] eqn:F; [|discriminate]. injection H as <-. apply find_some in F as [F _]. specialize (A _ F). lia.
Qed.
Definition val_ok (c : Z) (v : tokval) : Prop := forall p l, tok_ok (mkTok c v p l).
Lemma val_plain c : plain_code c = true -> val_ok c TVNone.
Proof. intros H p l. unfold tok_ok. cbn [t_val]. unfold plain_code in H. change (sym_of (mkTok c TVNone p l)) with (sym_of_code c). destruct (symty (sym_of_code c)); try discriminate H; exact I. Qed.
Ltac rule_cases :=
  repeat match goal with |- context [if ?b then _ else _] => let E := fresh "B" in destruct b eqn:E end.
(** What every action preserves and delivers. *)
Lemma run_rule_ok r t st : is_start (lx_start st) ->
  match run_rule r t st with
  | Skip st' => is_start (lx_start st') /\ lx_pos st' = user_action t (lx_pos st)
  | Ret c v st' => is_start (lx_start st') /\ lx_pos st' = user_action t (lx_pos st) /\ val_ok c v
  end.
Proof.
  intro S. assert (S1 : is_start 1) by (left; reflexivity). assert (S3 : is_start 3) by (right; left; reflexivity). assert (S5 : is_start 5) by (right; right; reflexivity).
  unfold run_rule. cbn [lx_start lx_buf lx_pos].
  rule_cases; cbn [lx_start lx_buf lx_pos]; try (split; [assumption|reflexivity]); try (split; [assumption|split; [reflexivity|]]).
  - destruct t as [|c t]; apply val_plain, plain_small; [lia|apply bz_range].
  - intros p l. unfold tok_ok. cbn [t_val]. unfold sym_of. cbn [t_code]. vm_compute. exact I.
  - intros p l. vm_compute. exact I.
  - destruct (strtoll0 t) as [v|]; cbn [lx_start lx_buf lx_pos]; (split; [assumption|split; [reflexivity|]]).
    + intros p l. vm_compute. exact I.
    + apply val_plain. vm_compute. reflexivity.
  - intros p l. vm_compute. exact I.
  - intros p l. vm_compute. exact I.
  - intros p l. vm_compute. exact I.
  - apply val_plain. vm_compute. reflexivity.
  - destruct (token_rule r) as [c|] eqn:T; cbn [lx_start lx_buf lx_pos]; (split; [assumption|split; [reflexivity|]]).
    + apply val_plain. apply (plain_rule T).
    + apply val_plain. vm_compute. reflexivity.
Qed.
Lemma skipn_NUL n rest : ~ In NUL rest -> ~ In NUL (skipn n rest).
Proof. intros N I. apply N. rewrite <- (firstn_skipn n rest). apply in_or_app. now right. Qed.
(** One scanner iteration, in full. *)
Lemma lex_step_total st rest : is_start (lx_start st) -> ~ In NUL rest ->
  rest = [] /\ lex_step st rest = StepTok 0 TVNone st [] \/
  exists r n, best (active (lx_start st)) rest r n /\ (1 <= n <= List.length rest)%nat /\ 1 <= r <= 189 /\
    lex_step st rest = match run_rule r (firstn n rest) st with Skip st' => StepSkip st' (skipn n rest) | Ret c v st' => StepTok c v st' (skipn n rest) end.
Proof.
  intros S N. destruct rest as [|b rest]; [left; split; [reflexivity|]; unfold lex_step; now rewrite (lex_match_eof S)|].
  right. destruct (lex_match_best S N) as (r & n & E & B & L & R); [discriminate|]. exists r, n. split; [exact B|]. split; [destruct B as (B & _); lia|]. split; [exact R|].
  unfold lex_step. now rewrite E.
Qed.
(** ** Fuel does not matter *)
Lemma lex_fuel : forall fuel fuel' st len0 rest, is_start (lx_start st) -> ~ In NUL rest -> (List.length rest < fuel)%nat -> (List.length rest < fuel')%nat ->
  lex_tokens fuel st len0 rest = lex_tokens fuel' st len0 rest.
Proof.
  induction fuel as [|f IH]; intros [|f'] st len0 rest S N L L'; try lia. cbn [lex_tokens].
  destruct (lex_step_total S N) as [[-> E]|(r & n & B & L1 & R & E)]; [rewrite E; reflexivity|]. rewrite E.
  pose proof (run_rule_ok r (firstn n rest) S) as P. destruct (run_rule r (firstn n rest) st) as [st'|c v st'].
  - apply IH; [apply P|now apply skipn_NUL|rewrite skipn_length; lia|rewrite skipn_length; lia].
  - destruct (c <=? 0); [reflexivity|]. rewrite (IH f' st' (slen (lx_pos st')) (skipn n rest)); [reflexivity|apply P|now apply skipn_NUL|rewrite skipn_length; lia|rewrite skipn_length; lia].
Qed.
(** The tokens read from a scanner state. *)
Definition lex_from (st : lexst) (len0 : Z) (rest : bytes) : option (list token) := lex_tokens (S (List.length rest)) st len0 rest.
Lemma lex_from_eq st len0 rest : is_start (lx_start st) -> ~ In NUL rest ->
  lex_from st len0 rest =
  match lex_step st rest with
  | StepStuck => None
  | StepSkip st' rest' => lex_from st' len0 rest'
  | StepTok c v st' rest' =>
    let t := mkTok c v (lx_pos st') (slen (lx_pos st') - len0) in
    if c <=? 0 then Some [t] else ts <-o lex_from st' (slen (lx_pos st')) rest' ; Some (t :: ts)
  end.
Proof.
  intros S N. unfold lex_from at 1. cbn [lex_tokens]. destruct (lex_step_total S N) as [[-> E]|(r & n & B & L1 & R & E)]; rewrite E; [reflexivity|].
  pose proof (run_rule_ok r (firstn n rest) S) as P. destruct (run_rule r (firstn n rest) st) as [st'|c v st'].
  - apply lex_fuel; [apply P|now apply skipn_NUL|rewrite skipn_length; lia|lia].
  - cbn zeta. destruct (c <=? 0); [reflexivity|]. rewrite (@lex_fuel (List.length rest) (Datatypes.S (List.length (skipn n rest))) st' _ _); [reflexivity|apply P|now apply skipn_NUL|rewrite skipn_length; lia|lia].
Qed.
(** Induction over the remaining input. *)
Lemma lex_ind (P : lexst -> bytes -> Prop) :
  (forall st rest, is_start (lx_start st) -> ~ In NUL rest ->
     (forall st' n, (1 <= n)%nat -> is_start (lx_start st') -> rest <> [] -> P st' (skipn n rest)) -> P st rest) ->
  forall st rest, is_start (lx_start st) -> ~ In NUL rest -> P st rest.
Proof.
  intros H st rest. remember (List.length rest) as k eqn:K. revert st rest K. induction k as [k IH] using lt_wf_ind. intros st rest -> S N.
  apply H; auto. intros st' n L S' NE. eapply (IH (List.length (skipn n rest))); auto; [|now apply skipn_NUL].
  rewrite skipn_length. destruct rest; [congruence|]. cbn [List.length]. lia.
Qed.
(** ** Totality *)
Lemma lex_from_total : forall st rest, is_start (lx_start st) -> ~ In NUL rest -> forall len0,
  exists ts, lex_from st len0 rest = Some ts /\ ends_eof ts /\ Forall tok_ok ts.
Proof.
  intros st rest S0 N0. refine (@lex_ind (fun st rest => forall len0, exists ts, lex_from st len0 rest = Some ts /\ ends_eof ts /\ Forall tok_ok ts) _ st rest S0 N0).
  clear. intros st rest S N IH len0. rewrite (lex_from_eq len0 S N).
  destruct (lex_step_total S N) as [[-> E]|(r & n & B & L1 & R & E)]; rewrite E.
  - cbn [Z.leb Z.compare]. eexists. split; [reflexivity|]. split; [constructor; cbn; lia|]. constructor; [apply val_plain; vm_compute; reflexivity|constructor].
  - assert (NE : rest <> []) by (intros ->; cbn in L1; lia).
    pose proof (run_rule_ok r (firstn n rest) S) as P. destruct (run_rule r (firstn n rest) st) as [st'|c v st'].
    + apply IH; [lia|apply P|exact NE].
    + destruct P as (PS & PP & PV). cbn zeta. destruct (c <=? 0) eqn:C.
      * eexists. split; [reflexivity|]. split; [constructor; cbn; lia|]. constructor; [apply PV|constructor].
      * destruct (IH st' n) with (len0 := slen (lx_pos st')) as (ts & ET & EE & FA); [lia|exact PS|exact NE|]. rewrite ET. cbn [obind].
        eexists. split; [reflexivity|]. split; [constructor; [cbn; lia|exact EE]|]. constructor; [apply PV|exact FA].
Qed.
Lemma c_string_NUL s : ~ In NUL (c_string s).
Proof. induction s as [|c s IH]; cbn [c_string]; [intros []|]. destruct (byte_eqb c NUL) eqn:E; [intros []|]. intros [->|I]; [discriminate E|contradiction]. Qed.
Theorem lex_all_total buf0 sql : exists ts, lex_all buf0 sql = Some ts /\ ends_eof ts /\ Forall tok_ok ts.
Proof. unfold lex_all. apply (@lex_from_total (lex_init buf0) (c_string sql)); [left; reflexivity|apply c_string_NUL]. Qed.

(** ** The regular expression of a rule *)
Definition rule_rx (r : Z) : rx := match find (fun p => fst p =? r) flex_rules with Some p => snd (snd p) | None => Nothing end.
Definition rule_where (r : Z) : where_ := match find (fun p => fst p =? r) flex_rules with Some p => fst (snd p) | None => StringOnly end.
Definition where_eqb (a b : where_) : bool := match a, b with Normal, Normal | CommentOnly, CommentOnly | StringOnly, StringOnly => true | _, _ => false end.
Definition unique_ok (p : Z * (where_ * rx)) : bool := rx_eqb (snd (snd p)) (rule_rx (fst p)) && ((fst p =? 189) || where_eqb (fst (snd p)) (rule_where (fst p))).
Lemma unique_all : forallb unique_ok flex_rules = true.
Proof. vm_compute. reflexivity. Qed.
Lemma active_In s r x : In (r, x) (active s) -> exists w, In (r, (w, x)) flex_rules /\ applies s w = true.
Proof.
  unfold active. generalize flex_rules as l. intros l I. apply in_map_iff in I as ([r' [w' y]] & E & I). cbn [fst snd] in E. injection E as -> ->.
  apply filter_In in I as [I F]. exists w'. split; [exact I|exact F].
Qed.
Lemma matched_rule s r w : matched (active s) r w -> matches (rule_rx r) w /\ (r = 189 \/ applies s (rule_where r) = true).
Proof.
  intros (x & I & M). apply active_In in I as (w' & I & F). pose proof (proj1 (forallb_forall unique_ok flex_rules) unique_all _ I) as U. unfold unique_ok in U. cbn [fst snd] in U.
  apply andb_prop in U as [U1 U2]. apply rx_eqb_ok in U1. rewrite <- U1. split; [exact M|]. destruct (r =? 189) eqn:E; [left; lia|]. right. cbn [orb] in U2.
  destruct w', (rule_where r); try discriminate U2; exact F.
Qed.
Lemma rule_matched s r w : matches (rule_rx r) w -> applies s (rule_where r) = true -> matched (active s) r w.
Proof.
  unfold rule_rx, rule_where. destruct (find (fun p => fst p =? r) flex_rules) as [[r' [w' x]]|] eqn:F; [|intro H; inversion H].
  cbn [fst snd]. intros M A. exists x. split; [|exact M]. apply find_some in F as [I E]. cbn [fst] in E. apply Z.eqb_eq in E. subst r'.
  unfold active. revert I. generalize flex_rules as l. intros l I. apply in_map_iff. exists (r, (w', x)). split; [reflexivity|]. apply filter_In. split; [exact I|exact A].
Qed.
(** ** Token codes: positive and below 2^15, except for the end of input and unknown characters *)
Lemma rule_177 t : matches (rule_rx 177) t -> exists c, t = [c] /\ 36 < bz c < 126.
Proof.
  unfold rule_rx. vm_compute (find _ _). cbn [snd]. inversion 1; subst. exists c. split; [reflexivity|]. unfold in_class in *. cbn [existsb fst snd] in *. lia.
Qed.
Lemma token_rules_all r : 5 <= r <= 176 -> exists c, token_rule r = Some c /\ 0 < c < 1000.
Proof.
  assert (A : forallb (fun r => match token_rule r with Some c => (0 <? c) && (c <? 1000) | None => false end) (zrange 172 5) = true) by (vm_compute; reflexivity).
  rewrite forallb_forall in A. intro R. assert (I : In r (zrange 172 5)) by (apply zrange_In; lia). specialize (A r I). destruct (token_rule r) as [c|]; [|discriminate]. exists c. split; [reflexivity|lia].
Qed.
Lemma run_rule_code s r t st : 1 <= r <= 189 -> matched (active s) r t ->
  match run_rule r t st with Skip _ => True | Ret c v _ => 0 < c < 1000 \/ (r = 188 /\ c = 0 /\ v = TVNone) end.
Proof.
  intros R M. unfold run_rule. rule_cases; try exact I; try (left; vm_compute; split; reflexivity).
  - apply matched_rule in M as [M _]. assert (r = 177) by lia. subst r. apply rule_177 in M as (c & -> & L). left. lia.
  - destruct (strtoll0 t); left; vm_compute; split; reflexivity.
  - right. split; [lia|split; reflexivity].
  - destruct (@token_rules_all r ltac:(lia)) as (c & -> & L). left. exact L.
Qed.
Definition codes_ok (ts : list token) : Prop := exists ts' t, ts = ts' ++ [t] /\ t_code t = 0 /\ t_val t = TVNone /\ Forall (fun t => 0 < t_code t < 1000) ts'.
Lemma lex_from_codes : forall st rest, is_start (lx_start st) -> ~ In NUL rest -> forall len0 ts, lex_from st len0 rest = Some ts -> codes_ok ts.
Proof.
  intros st rest S0 N0. refine (@lex_ind (fun st rest => forall len0 ts, lex_from st len0 rest = Some ts -> codes_ok ts) _ st rest S0 N0).
  clear. intros st rest ST N IH len0 ts EQ. rewrite (lex_from_eq len0 ST N) in EQ.
  destruct (lex_step_total ST N) as [[-> E]|(r & n & B & L1 & R & E)]; rewrite E in EQ; [cbn in EQ; injection EQ as <-; exists []; eexists; split; [reflexivity|]; cbn; auto|].
  assert (NE : rest <> []) by (intros ->; cbn in L1; lia).
  pose proof (run_rule_ok r (firstn n rest) ST) as P. destruct B as (_ & M & _). pose proof (@run_rule_code _ _ _ st R M) as C. destruct (run_rule r (firstn n rest) st) as [st'|c v st'].
  - apply (@IH st' n) in EQ; [exact EQ|lia|apply P|exact NE].
  - cbn zeta in EQ. destruct (c <=? 0) eqn:C0.
    + destruct C as [C|(_ & -> & ->)]; [lia|]. injection EQ as <-. exists []. eexists. split; [reflexivity|]. cbn. auto.
    + destruct C as [C|C]; [|lia]. destruct (lex_from st' _ _) as [ts'|] eqn:ET; [|discriminate]. cbn [obind] in EQ. injection EQ as <-.
      apply (@IH st' n) in ET; [|lia|apply P|exact NE]. destruct ET as (l & t & -> & T0 & TV & F). exists (mkTok c v (lx_pos st') (slen (lx_pos st') - len0) :: l), t.
      split; [reflexivity|]. repeat split; auto.
Qed.
Lemma lex_all_codes buf0 sql ts : lex_all buf0 sql = Some ts -> codes_ok ts.
Proof. unfold lex_all. apply (@lex_from_codes (lex_init buf0) (c_string sql)); [left; reflexivity|apply c_string_NUL]. Qed.
