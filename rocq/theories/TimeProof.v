(** How far the scanner looks ahead, and the cost of one scan.  No code of /repo. *)
From Verif Require Import Base FlexTables TokenCodes LexRules LexModel LexTime Regex LexSpec LexCert TableCheck LexProof LexMatch Grammar Ast Heap Driver Typing Own Sem Inv LexTotal.
From Coq Require Import ZifyBool ZifyNat ZifyN.
Local Open Scope Z_scope.
Set Implicit Arguments.
Unset Strict Implicit.

(** ** The clock does not change the results *)
Lemma trans_erase fuel : forall s c, fst (yy_trans_t fuel s c) = yy_trans fuel s c.
Proof.
  induction fuel as [|f IH]; intros s c; [reflexivity|]. cbn [yy_trans_t yy_trans]. destruct (get yy_base s) as [b|]; [|reflexivity]. cbn [obind].
  destruct (get yy_chk (b + c)) as [k|]; [|reflexivity]. cbn [obind]. destruct (k =? s); [reflexivity|]. destruct (get yy_def s) as [d|]; [|reflexivity]. cbn [obind].
  destruct (d >=? 1368).
  - destruct (get yy_meta c) as [m|]; [|reflexivity]. cbn [obind]. rewrite <- IH. now destruct (yy_trans_t f d m).
  - rewrite <- IH. now destruct (yy_trans_t f d c).
Qed.
Lemma next_erase s c : fst (yy_next_t s c) = yy_next s c.
Proof. apply trans_erase. Qed.
Lemma match_erase buf : forall pos s last, fst (yy_match_t buf pos s last) = yy_match buf pos s last.
Proof.
  induction buf as [|ch buf IH]; intros pos s last; [reflexivity|]. cbn [yy_match_t yy_match]. destruct (get yy_ec (bz ch)) as [c|]; [|reflexivity]. cbn [obind].
  destruct (get yy_accept s) as [a|]; [|reflexivity]. cbn [obind]. rewrite <- next_erase. destruct (yy_next_t s c) as [[s'|] n]; [|reflexivity]. cbn [fst obind].
  destruct (s' =? YY_JAM); [reflexivity|]. rewrite <- IH. now destruct (yy_match_t buf (S pos) s' _).
Qed.
Lemma previous_erase text : forall pos s last, fst (yy_previous_t text pos s last) = yy_previous text pos s last.
Proof.
  induction text as [|ch text IH]; intros pos s last; [reflexivity|]. cbn [yy_previous_t yy_previous]. destruct (get yy_ec (bz ch)) as [c|]; [|reflexivity]. cbn [obind].
  destruct (get yy_accept s) as [a|]; [|reflexivity]. cbn [obind]. rewrite <- next_erase. destruct (yy_next_t s c) as [[s'|] n]; [|reflexivity]. cbn [fst obind].
  rewrite <- IH. now destruct (yy_previous_t text (S pos) s' _).
Qed.
Lemma lex_match_erase start rest : fst (lex_match_t start rest) = lex_match start rest.
Proof.
  unfold lex_match_t, lex_match. rewrite <- match_erase. destruct (yy_match_t (rest ++ [NUL; NUL]) 0 start None) as [[[sl|]|] n]; cbn [fst obind]; try reflexivity.
  destruct (get yy_accept (fst sl)) as [a|]; [|reflexivity]. cbn [obind]. destruct (a =? 0); [reflexivity|]. destruct (a =? YY_END_OF_BUFFER); [|reflexivity].
  destruct (negb _); [reflexivity|]. destruct (Nat.eqb (snd sl) 1); [reflexivity|]. rewrite <- previous_erase. destruct (yy_previous_t rest 0 start None) as [[pr|] k]; reflexivity.
Qed.
Lemma lex_step_erase st rest : fst (lex_step_t st rest) = lex_step st rest.
Proof.
  unfold lex_step_t, lex_step. rewrite <- lex_match_erase. destruct (lex_match_t (lx_start st) rest) as [[[r m|]|] n]; reflexivity.
Qed.
Lemma lex_tokens_erase fuel : forall st len0 rest, fst (lex_tokens_t fuel st len0 rest) = lex_tokens fuel st len0 rest.
Proof.
  induction fuel as [|f IH]; intros st len0 rest; [reflexivity|]. cbn [lex_tokens_t lex_tokens]. rewrite <- lex_step_erase. destruct (lex_step_t st rest) as [[st' rest'|c v st' rest'|] n]; cbn [fst]; [| |reflexivity].
  - rewrite <- IH. now destruct (lex_tokens_t f st' len0 rest').
  - destruct (c <=? 0); [reflexivity|]. rewrite <- IH. now destruct (lex_tokens_t f st' (slen (lx_pos st')) rest').
Qed.
Lemma lex_all_erase buf0 sql : fst (lex_all_t buf0 sql) = lex_all buf0 sql.
Proof.
  unfold lex_all_t, lex_all. cbv zeta. rewrite <- lex_tokens_erase. now destruct (lex_tokens_t _ (lex_init buf0) 0 (c_string sql)).
Qed.

(** ** How far the automaton runs *)
(** The number of bytes of [rest] consumed before no rule can match any more. *)
Fixpoint reach (l : rules) (rest : bytes) : nat :=
  match rest with
  | [] => O
  | c :: rest' => match steps c l with [] => O | l' => S (reach l' rest') end
  end.
Lemma reach_le rest : forall l, (reach l rest <= List.length rest)%nat.
Proof. induction rest as [|c rest IH]; intro l; cbn [reach List.length]; [lia|]. destruct (steps c l) as [|p l']; [lia|]. specialize (IH (p :: l')). lia. Qed.
(** The transition loop makes at most 5 rounds. *)
Definition fast_at (s z : Z) : bool := match get yy_ec z with Some e => Nat.leb (snd (yy_next_t s e)) 5 | None => false end.
Definition fast_ok (s : Z) : bool := forallb (fast_at s) (zrange 256 0).
Lemma fast_all : forallb (fun p => fast_ok (fst p)) resid_list = true.
Proof. vm_compute. reflexivity. Qed.
Lemma fast_state0 s l : resid s = Some l -> fast_ok s = true.
Proof.
  intros R. apply resid_In in R. pose proof fast_all as A. rewrite forallb_forall in A. specialize (A _ R). exact A.
Qed.
Lemma fast_state1 s z : fast_ok s = true -> 0 <= z < 256 -> fast_at s z = true.
Proof.
  unfold fast_ok. intros A R. rewrite forallb_forall in A. apply A. apply zrange_In. lia.
Qed.
Lemma fast_state s l c e : resid s = Some l -> get yy_ec (bz c) = Some e -> (snd (yy_next_t s e) <= 5)%nat.
Proof.
  intros R E. pose proof (fast_state1 (fast_state0 R) (bz_range c)) as A. unfold fast_at in A. rewrite E in A. now apply Nat.leb_le.
Qed.
Lemma fast_eob e : get yy_ec (bz NUL) = Some e -> (snd (yy_next_t EOB e) <= 5)%nat.
Proof.
  intro E. assert (A : match get yy_ec (bz NUL) with Some e => Nat.leb (snd (yy_next_t EOB e)) 5 | None => false end = true) by (vm_compute; reflexivity).
  rewrite E in A. now apply Nat.leb_le.
Qed.
Lemma match_cost rest : forall s l pos last, resid s = Some l -> ~ In NUL rest ->
  (snd (yy_match_t (rest ++ [NUL; NUL]) pos s last) <= 6 * reach l rest + 12)%nat.
Proof.
  induction rest as [|c rest IH]; intros s l pos last R NN.
  - cbn [app yy_match_t reach]. destruct (state_facts R) as (_ & (a & EA & _ & _) & (e & EE & EN)). rewrite EE, EA.
    pose proof (fast_state R EE) as F1. pose proof (next_erase s e) as N1. rewrite EN in N1. destruct (yy_next_t s e) as [o n]. cbn [fst snd] in *. subst o.
    change (EOB =? YY_JAM) with false. cbv iota. destruct eob_facts as (EA7 & e7 & EE7 & EN7). assert (e7 = e) by congruence. subst e7. rewrite EA7.
    pose proof (fast_eob EE) as F2. pose proof (next_erase EOB e) as N2. rewrite EN7 in N2. destruct (yy_next_t EOB e) as [o k]. cbn [fst snd] in *. subst o.
    change (YY_JAM =? YY_JAM) with true. cbv iota. cbn [snd]. lia.
  - cbn [app yy_match_t reach]. destruct (state_facts R) as (SF & (a & EA & _ & _) & _). destruct (SF c) as (e & t & EE & EN & CASE); [intros ->; apply NN; now left|].
    rewrite EE, EA. pose proof (fast_state R EE) as F1. pose proof (next_erase s e) as N1. rewrite EN in N1. destruct (yy_next_t s e) as [o n]. cbn [fst snd] in *. subst o.
    destruct CASE as [[-> ES]|(NJ & ES & RT)].
    + change (YY_JAM =? YY_JAM) with true. cbv iota. cbn [snd]. lia.
    + destruct (t =? YY_JAM) eqn:J; [lia|]. specialize (IH t (steps c l) (S pos) (if a =? 0 then last else Some (s, pos)) RT ltac:(intro I; apply NN; now right)).
      destruct (steps c l) as [|p l'] eqn:EL; [congruence|]. destruct (yy_match_t (rest ++ [NUL; NUL]) (S pos) t _) as [o k]. cbn [snd] in *. lia.
Qed.
Lemma previous_cost rest : forall s l pos last, resid s = Some l -> ~ In NUL rest -> reach l rest = List.length rest ->
  (snd (yy_previous_t rest pos s last) <= 6 * List.length rest)%nat.
Proof.
  induction rest as [|c rest IH]; intros s l pos last R NN FULL; [cbn; lia|]. cbn [yy_previous_t List.length]. cbn [reach List.length] in FULL.
  destruct (state_facts R) as (SF & (a & EA & _ & _) & _). destruct (SF c) as (e & t & EE & EN & CASE); [intros ->; apply NN; now left|].
  rewrite EE, EA. pose proof (fast_state R EE) as F1. pose proof (next_erase s e) as N1. rewrite EN in N1. destruct (yy_next_t s e) as [o n]. cbn [fst snd] in *. subst o.
  destruct CASE as [[-> ES]|(NJ & ES & RT)]; [rewrite ES in FULL; discriminate|]. destruct (steps c l) as [|p l'] eqn:EL; [congruence|].
  specialize (IH t (p :: l') (S pos) (if a =? 0 then last else Some (s, pos)) RT ltac:(intro I; apply NN; now right) ltac:(lia)).
  destruct (yy_previous_t rest (S pos) t _) as [o k]. cbn [snd] in *. lia.
Qed.
Lemma resid_eob : resid EOB = None. Proof. vm_compute. reflexivity. Qed.
(** The end-of-buffer state is reached only if everything was consumed. *)
Lemma match_full rest : forall s l pos last n, resid s = Some l -> ~ In NUL rest -> (match last with Some (s0, _) => s0 <> EOB | None => True end) ->
  yy_match (rest ++ [NUL; NUL]) pos s last = Some (Some (EOB, n)) -> reach l rest = List.length rest.
Proof.
  induction rest as [|c rest IH]; intros s l pos last n R NN LA E; [reflexivity|].
  assert (SE : s <> EOB) by (intros ->; rewrite resid_eob in R; discriminate).
  cbn [app yy_match] in E. cbn [reach List.length]. destruct (state_facts R) as (SF & (a & EA & _ & _) & _). destruct (SF c) as (e & t & EE & EN & CASE); [intros ->; apply NN; now left|].
  rewrite EE in E. cbn [obind] in E. rewrite EA in E. cbn [obind] in E. rewrite EN in E. cbn [obind] in E.
  assert (LB : match (if a =? 0 then last else Some (s, pos)) with Some (s0, _) => s0 <> EOB | None => True end) by (destruct (a =? 0); assumption).
  destruct CASE as [[-> ES]|(NJ & ES & RT)].
  - exfalso. change (YY_JAM =? YY_JAM) with true in E. cbv iota in E. clear - E LB. destruct (if a =? 0 then last else Some (s, pos)) as [[s0 k]|]; [|discriminate E]. injection E as E1 E2. exact (LB E1).
  - apply Z.eqb_neq in NJ. rewrite NJ in E. destruct (steps c l) as [|p l'] eqn:EL; [now destruct ES|]. f_equal.
    refine (IH t (p :: l') (S pos) _ n RT _ LB E). intro I. apply NN. now right.
Qed.
Lemma lex_match_cost start l rest : resid start = Some l -> ~ In NUL rest ->
  (snd (lex_match_t start rest) <= 12 * reach l rest + 12)%nat.
Proof.
  intros R NN. unfold lex_match_t. pose proof (@match_cost rest start l 0%nat None R NN) as C.
  pose proof (match_erase (rest ++ [NUL; NUL]) 0 start None) as ME. destruct (yy_match_t (rest ++ [NUL; NUL]) 0 start None) as [o n]. cbn [fst snd] in *.
  destruct o as [[sl|]|]; [|cbn [snd]; lia|cbn [snd]; lia]. destruct (get yy_accept (fst sl)) as [a|] eqn:GA; [|cbn [snd]; lia]. destruct (a =? 0) eqn:A0; [cbn [snd]; lia|].
  destruct (a =? YY_END_OF_BUFFER) eqn:A1; [|cbn [snd]; lia]. destruct (negb _) eqn:G; [cbn [snd]; lia|]. destruct (Nat.eqb (snd sl) 1); [cbn [snd]; lia|].
  assert (FULL : reach l rest = List.length rest).
  { destruct (@match_sim rest start l 0%nat None None R I NN) as [(last' & E & CV)|(E & _)].
    - rewrite <- ME in E. injection E as <-. destruct sl as [s1 n1]. cbn [fst snd] in *. cbn [conv] in CV. destruct (scan l rest 0 None) as [[r m]|]; [|destruct CV].
      destruct CV as (EA & _ & RR). rewrite GA in EA. injection EA as ->. unfold YY_END_OF_BUFFER in A1. lia.
    - refine (@match_full rest start l 0%nat None _ R NN I E). }
  pose proof (@previous_cost rest start l 0%nat None R NN FULL) as P. destruct (yy_previous_t rest 0 start None) as [p k]. cbn [snd] in *. lia.
Qed.

(** ** How far it runs past the text it finally matches *)
Definition blank_code (z : Z) : bool := (z =? 9) || (z =? 10) || (z =? 32).
Definition is_blank (c : ascii) : Prop := blank_code (bz c) = true.
Definition acc_of (s : Z) : Z := match get yy_accept s with Some a => a | None => 0 end.
Definition to (s z : Z) : Z := match get yy_ec z with Some e => match yy_next s e with Some t => t | None => -1 end | None => -1 end.
Definition hanging : list Z := Eval vm_compute in filter (fun s => acc_of s =? 0) (map fst resid_list).
Definition hang_succ : list (Z * list Z) := Eval vm_compute in
  map (fun s => (s, nodup Z.eq_dec (filter (fun t => if t =? YY_JAM then false else acc_of t =? 0) (map (to s) (zrange 255 1))))) hanging.
Definition zmem (l : list Z) (x : Z) : bool := existsb (Z.eqb x) l.
Fixpoint layer (k : nat) : list Z := match k with O => [] | S k => let P := layer k in map fst (filter (fun p => forallb (zmem P) (snd p)) hang_succ) end.
Definition ranks : list (Z * nat) := Eval vm_compute in
  flat_map (fun s => match find (fun k => zmem (layer (S k)) s) (seq 0 18) with Some k => [(s, k)] | None => [] end) hanging.
(** The number of further bytes that can be read from a non-accepting state without passing an accepting one. *)
Definition rank (s : Z) : option nat := match find (fun p => fst p =? s) ranks with Some p => Some (snd p) | None => None end.
(** The states inside the blanks of CURRENT ROW and CHARACTER VARYING. *)
Definition gap (s : Z) : bool := (s =? 1241) || (s =? 1316).
Definition ahead_ok (s : Z) : bool :=
  let a := acc_of s in
  (if negb (a =? 0) then true else if Z.eqb s 88 then true else if gap s then true else match rank s with Some k => Nat.leb k 17 | None => false end) &&
  forallb (fun z =>
    let t := to s z in
    if t =? YY_JAM then true
    else if negb (acc_of t =? 0) then true
    else if negb (a =? 0) then
      match rank t with Some _ => true | None => if a =? 188 then true else if blank_code z then if gap t then (a =? 183) || (a =? 2) else false else false end
    else if gap s then if blank_code z then gap t else match rank t with Some _ => true | None => false end
    else match rank s with
         | None => true
         | Some k => match rank t with Some k' => Nat.ltb k' k | None => false end
         end) (zrange 255 1).
Lemma ahead_all : forallb (fun p => ahead_ok (fst p)) resid_list = true.
Proof. vm_compute. reflexivity. Qed.
Lemma rank_small s k : rank s = Some k -> (k <= 17)%nat.
Proof.
  unfold rank. intro H. destruct (find _ ranks) as [p|] eqn:F; [|discriminate]. injection H as <-. apply find_some in F as [F _].
  assert (A : forallb (fun p => Nat.leb (snd p) 17) ranks = true) by (vm_compute; reflexivity). rewrite forallb_forall in A. specialize (A _ F). now apply Nat.leb_le.
Qed.
(** What the check says, for one step. *)
Lemma ahead_step s l c e t : resid s = Some l -> c <> NUL -> get yy_ec (bz c) = Some e -> yy_next s e = Some t -> t <> YY_JAM -> acc_of t = 0 ->
  (acc_of s <> 0 -> (exists k, rank t = Some k) \/ acc_of s = 188 \/ is_blank c /\ gap t = true /\ (acc_of s = 183 \/ acc_of s = 2)) /\
  (acc_of s = 0 -> gap s = true -> is_blank c /\ gap t = true \/ exists k, rank t = Some k) /\
  (acc_of s = 0 -> gap s = false -> forall k, rank s = Some k -> exists k', rank t = Some k' /\ (k' < k)%nat).
Proof.
  intros R N EE EN NJ AT. apply resid_In in R. pose proof ahead_all as A. rewrite forallb_forall in A. specialize (A _ R). cbn [fst] in A. unfold ahead_ok in A.
  apply andb_prop in A as [_ A]. rewrite forallb_forall in A. specialize (A (bz c)).
  assert (I : In (bz c) (zrange 255 1)).
  { apply zrange_In. pose proof (bz_range c). assert (bz c <> 0); [|lia]. intro Z. apply N. rewrite <- (byte_bz c), Z. reflexivity. }
  specialize (A I). clear I R. assert (T : to s (bz c) = t) by (unfold to; rewrite EE, EN; reflexivity). rewrite T in A. cbv zeta in A. rewrite AT in A.
  apply Z.eqb_neq in NJ. rewrite NJ in A. cbn [Z.eqb negb] in A. unfold is_blank. generalize dependent (acc_of s). intros a A. clear T AT.
  split; [|split].
  - intro H. apply Z.eqb_neq in H. rewrite H in A. cbn [negb] in A. destruct (rank t) as [k|]; [left; eauto|]. destruct (a =? 188) eqn:B; [right; left; lia|].
    destruct (blank_code (bz c)); [|discriminate]. destruct (gap t); [|discriminate]. right. right. split; [reflexivity|]. split; [reflexivity|]. lia.
  - intros H G. rewrite H, G in A. cbn [Z.eqb negb] in A. destruct (blank_code (bz c)); [left; auto|]. destruct (rank t) as [k|]; [right; eauto|discriminate].
  - intros H G k K. rewrite H, G, K in A. cbn [Z.eqb negb] in A. destruct (rank t) as [k'|]; [|discriminate]. exists k'. split; [reflexivity|]. now apply Nat.ltb_lt.
Qed.
Lemma gap_norank s : gap s = true -> rank s = None.
Proof. unfold gap. intro H. assert (E : s = 1241 \/ s = 1316) by lia. destruct E as [-> | ->]; vm_compute; reflexivity. Qed.
(** Beyond a match of rule [r] followed by [w], [ov] more bytes were read. *)
Definition tail (r : Z) (ov : nat) (w : bytes) : Prop :=
  r = 188 \/ exists b v, w = b ++ v /\ Forall is_blank b /\ (ov <= List.length b + 18)%nat /\ (b = [] \/ r = 183 \/ r = 2).
Definition found (r : Z) (m pos : nat) (l : rules) (rest : bytes) : Prop :=
  exists ov, (reach l rest <= (m - pos) + ov)%nat /\ tail r ov (skipn (m - pos) rest).
Lemma found_cons r m pos l c rest : (S pos <= m)%nat -> steps c l <> [] -> found r m (S pos) (steps c l) rest -> found r m pos l (c :: rest).
Proof.
  intros L ES (ov & H1 & H2). exists ov. replace (m - pos)%nat with (S (m - S pos)) by lia. cbn [skipn]. split; [|exact H2]. cbn [reach]. destruct (steps c l) as [|p l']; [congruence|]. lia.
Qed.
Lemma first_acc s l : resid s = Some l -> first_nullable l = if acc_of s =? 0 then None else Some (acc_of s).
Proof. intro R. destruct (state_facts R) as (_ & (a & EA & _ & FN) & _). unfold acc_of. rewrite EA. exact FN. Qed.
Lemma ahead rest : forall s l pos o r m, resid s = Some l -> ~ In NUL rest -> scan l rest pos o = Some (r, m) ->
  (acc_of s <> 0 -> (pos <= m)%nat /\ found r m pos l rest) /\
  (acc_of s = 0 ->
     (S pos <= m)%nat /\ found r m pos l rest \/
     o = Some (r, m) /\ (forall k, rank s = Some k -> (reach l rest <= k)%nat) /\
       (gap s = true -> exists b v, rest = b ++ v /\ Forall is_blank b /\ (reach l rest <= List.length b + 18)%nat)).
Proof.
  assert (STOP : forall rest s l pos o r m, resid s = Some l -> reach l rest = O -> better l pos o = Some (r, m) ->
    (acc_of s <> 0 -> (pos <= m)%nat /\ found r m pos l rest) /\
    (acc_of s = 0 ->
     (S pos <= m)%nat /\ found r m pos l rest \/
     o = Some (r, m) /\ (forall k, rank s = Some k -> (reach l rest <= k)%nat) /\
       (gap s = true -> exists b v, rest = b ++ v /\ Forall is_blank b /\ (reach l rest <= List.length b + 18)%nat))).
  { intros w s l pos o r m R Z B. rewrite Z. unfold better in B. rewrite (first_acc R) in B. split; intro A.
    - apply Z.eqb_neq in A. rewrite A in B. injection B as <- <-. split; [lia|]. exists O. rewrite Z. split; [lia|]. right. exists [], (skipn (pos - pos) w). repeat split; [constructor|cbn; lia|now left].
    - rewrite A in B. cbn [Z.eqb] in B. right. split; [exact B|]. split; [intros; lia|]. intros _. exists [], w. repeat split; [constructor|lia]. }
  induction rest as [|c rest IH]; intros s l pos o r m R NN SC; [cbn [scan] in SC; now apply STOP|].
  cbn [scan] in SC. destruct (steps c l) as [|p l'] eqn:EL; [apply STOP; [exact R|cbn [reach]; now rewrite EL|exact SC]|]. rewrite <- EL in SC.
  assert (NC : c <> NUL) by (intros ->; apply NN; now left). assert (NN' : ~ In NUL rest) by (intro; apply NN; now right).
  assert (ES : steps c l <> []) by congruence. destruct (state_facts R) as (SF & _ & _). destruct (SF c NC) as (e & t & EE & EN & CASE). destruct CASE as [[_ X]|(NJ & _ & RT)]; [congruence|].
  destruct (IH t (steps c l) (S pos) (better l pos o) r m RT NN' SC) as [IHa IHn].
  assert (RE : reach l (c :: rest) = S (reach (steps c l) rest)) by (cbn [reach]; rewrite EL; reflexivity).
  destruct (Z.eq_dec (acc_of t) 0) as [AT|AT].
  - specialize (IHn AT). clear IHa. destruct IHn as [[L F]|(BO & IHr & IHg)].
    + split; [intros _; split; [lia|]|intros _; left; split; [lia|]]; (apply found_cons; [lia|exact ES|exact F]).
    + destruct (ahead_step R NC EE EN NJ AT) as (AS & AG & AR). unfold better in BO. rewrite (first_acc R) in BO. split; intro A.
      * specialize (AS A). assert (A' := A). apply Z.eqb_neq in A'. rewrite A' in BO. injection BO as BO1 BO2. subst m. split; [lia|].
        exists (S (reach (steps c l) rest)). rewrite RE. split; [lia|]. rewrite Nat.sub_diag. cbn [skipn]. destruct AS as [(k & K)|[E|(BL & G & RR)]].
        -- right. exists [], (c :: rest). repeat split; [constructor| |now left]. specialize (IHr _ K). apply rank_small in K. cbn [List.length]. lia.
        -- left. congruence.
        -- right. destruct (IHg G) as (b & v & EB & FB & LB). exists (c :: b), v. split; [rewrite EB; reflexivity|]. split; [constructor; assumption|]. split; [cbn [List.length]; lia|]. right. subst r. exact RR.
      * rewrite A in BO. cbn [Z.eqb] in BO. right. split; [exact BO|]. specialize (AG A). specialize (AR A). split.
        -- intros k K. destruct (gap s) eqn:G; [rewrite (gap_norank G) in K; discriminate|]. destruct (AR eq_refl _ K) as (k' & K' & L). specialize (IHr _ K'). lia.
        -- intro G. destruct (AG G) as [[BL GT]|(k & K)].
           ++ destruct (IHg GT) as (b & v & EB & FB & LB). exists (c :: b), v. split; [rewrite EB; reflexivity|]. split; [constructor; assumption|]. cbn [List.length]. lia.
           ++ exists [], (c :: rest). repeat split; [constructor|]. specialize (IHr _ K). apply rank_small in K. cbn [List.length]. lia.
  - destruct (IHa AT) as [L F]. split; [intros _; split; [lia|]|intros _; left; split; [lia|]]; (apply found_cons; [lia|exact ES|exact F]).
Qed.
(** From a start condition: the first byte leads to an accepting state. *)
Lemma start_acc s c e t : is_start s -> c <> NUL -> get yy_ec (bz c) = Some e -> yy_next s e = Some t -> acc_of t <> 0.
Proof.
  intros S N EE EN. assert (A : forallb (fun z => negb (acc_of (to s z) =? 0)) (zrange 255 1) = true) by (destruct S as [->|[-> | ->]]; vm_compute; reflexivity).
  rewrite forallb_forall in A. specialize (A (bz c)). assert (T : to s (bz c) = t) by (unfold to; rewrite EE, EN; reflexivity). rewrite T in A.
  assert (I : In (bz c) (zrange 255 1)).
  { apply zrange_In. pose proof (bz_range c). assert (bz c <> 0); [|lia]. intro Z. apply N. rewrite <- (byte_bz c), Z. reflexivity. }
  specialize (A I). lia.
Qed.
Lemma start_ahead start rest r m : is_start start -> ~ In NUL rest -> scan (active start) rest 0 None = Some (r, m) -> found r m 0 (active start) rest.
Proof.
  intros S NN SC. pose proof (active_resid S) as R. destruct (ahead R NN SC) as [A B]. destruct (Z.eq_dec (acc_of start) 0) as [Z|Z].
  - destruct (B Z) as [[_ F]|[X _]]; [exact F|discriminate].
  - apply (A Z).
Qed.

(** ** The cost of a whole scan *)
Fixpoint blanks (rest : bytes) : nat := match rest with c :: rest' => if blank_code (bz c) then S (blanks rest') else O | [] => O end.
Lemma blanks_le rest : (blanks rest <= List.length rest)%nat.
Proof. induction rest as [|c rest IH]; cbn [blanks List.length]; [lia|]. destruct (blank_code (bz c)); lia. Qed.
Lemma blanks_app b v : Forall is_blank b -> (List.length b <= blanks (b ++ v))%nat.
Proof. induction 1 as [|c b B _ IH]; cbn [app blanks List.length]; [lia|]. rewrite B. lia. Qed.
Lemma blanks_rx rest : matches (Star Blank) (firstn (blanks rest) rest).
Proof.
  induction rest as [|c rest IH]; cbn [blanks firstn]; [constructor|]. destruct (blank_code (bz c)) eqn:B; [|constructor]. cbn [firstn].
  change (c :: firstn (blanks rest) rest) with ([c] ++ firstn (blanks rest) rest). constructor; [|exact IH]. constructor.
  unfold blank_code in B. unfold in_class. cbn [existsb fst snd]. lia.
Qed.
Lemma active_blank s : s = 1 \/ s = 5 -> In (4, Plus Blank) (active s).
Proof.
  intro S. assert (A : existsb (rule_eqb (4, Plus Blank)) (active s) = true) by (destruct S as [-> | ->]; vm_compute; reflexivity).
  apply existsb_exists in A as ((r & x) & I & E). unfold rule_eqb in E. cbn [fst snd] in E. apply andb_prop in E as [E1 E2]. apply rx_eqb_ok in E2. apply Z.eqb_eq in E1. rewrite E1, E2. exact I.
Qed.
Lemma blanks_covered s rest r n : s = 1 \/ s = 5 -> best (active s) rest r n -> (blanks rest <= n)%nat.
Proof.
  intros S (_ & _ & B). destruct (blanks rest) as [|k] eqn:K; [lia|]. rewrite <- K. apply (B 4 (blanks rest)); [apply blanks_le|]. exists (Plus Blank). split; [now apply active_blank|].
  destruct rest as [|c rest]; [discriminate K|]. cbn [blanks] in *. destruct (blank_code (bz c)) eqn:BC; [|discriminate]. cbn [firstn].
  change (c :: firstn (blanks rest) rest) with ([c] ++ firstn (blanks rest) rest). constructor; [|apply blanks_rx]. constructor. unfold blank_code in BC. unfold in_class. cbn [existsb fst snd]. lia.
Qed.
Lemma active_string r w : matched (active 3) r w -> r <> 183 /\ r <> 2.
Proof.
  intros (x & I & _). assert (A : forallb (fun p => negb (fst p =? 183) && negb (fst p =? 2)) (active 3) = true) by (vm_compute; reflexivity).
  rewrite forallb_forall in A. specialize (A _ I). cbn [fst] in A. lia.
Qed.
(** Rules 183 and 2 leave the start condition as it is; rule 188 ends the scan. *)
Lemma rule_183_2 r t st : r = 183 \/ r = 2 -> match run_rule r t st with Skip st' => lx_start st' = lx_start st | Ret c v st' => lx_start st' = lx_start st end.
Proof. intros [-> | ->]; reflexivity. Qed.
Lemma rule_188 t st : exists st', run_rule 188 t st = Ret 0 TVNone st'.
Proof. eexists. reflexivity. Qed.
Lemma best_scan s rest r n : is_start s -> best (active s) rest r n -> scan (active s) rest 0 None = Some (r, n).
Proof.
  intros S (L & M & B). destruct (scan_ok rest 0 None (active_sorted S)) as [(r' & n' & E & (L' & M' & B'))|[_ NO]]; [|exfalso; exact (NO _ _ L M)].
  rewrite E. destruct (B _ _ L' M') as [A1 A2]. destruct (B' _ _ L M) as [A3 A4]. cbn [plus]. assert (n = n') by lia. subst n'. f_equal. f_equal. specialize (A2 eq_refl). specialize (A4 eq_refl). lia.
Qed.
(** One iteration: its cost, and what it read beyond its match. *)
Lemma step_cost st rest r n : is_start (lx_start st) -> ~ In NUL rest -> best (active (lx_start st)) rest r n -> lex_match (lx_start st) rest = Some (ARule r n) ->
  (snd (lex_step_t st rest) <= 13 + 12 * reach (active (lx_start st)) rest + n)%nat /\ found r n 0 (active (lx_start st)) rest.
Proof.
  intros S NN B E. split.
  - unfold lex_step_t. pose proof (lex_match_cost (active_resid S) NN) as C. pose proof (lex_match_erase (lx_start st) rest) as ER. rewrite E in ER.
    destruct (lex_match_t (lx_start st) rest) as [o k]. cbn [fst snd] in *. subst o. cbn [snd]. rewrite firstn_length. lia.
  - apply start_ahead; [exact S|exact NN|]. now apply best_scan.
Qed.
Definition credit (start : Z) (rest : bytes) : nat := if start =? 3 then O else (12 * blanks rest)%nat.
Lemma start_not3 s : is_start s -> s <> 3 -> s = 1 \/ s = 5.
Proof. unfold is_start. tauto. Qed.
Lemma credit_le s rest r n : is_start s -> best (active s) rest r n -> (credit s rest <= 12 * n)%nat.
Proof.
  intros S B. unfold credit. destruct (s =? 3) eqn:E; [lia|]. apply Z.eqb_neq in E. pose proof (blanks_covered (start_not3 S E) B). lia.
Qed.
Lemma scan_cost : forall fuel st len0 rest, is_start (lx_start st) -> ~ In NUL rest -> (List.length rest < fuel)%nat ->
  (snd (lex_tokens_t fuel st len0 rest) + credit (lx_start st) rest <= 254 * List.length rest + 13)%nat.
Proof.
  induction fuel as [|f IH]; intros st len0 rest S NN L; [lia|]. cbn [lex_tokens_t].
  destruct rest as [|b0 rest0] eqn:ER.
  { assert (Z : credit (lx_start st) [] = O) by (unfold credit; destruct (lx_start st =? 3); reflexivity). rewrite Z.
    assert (C : lex_step_t st [] = (StepTok 0 TVNone st [], (1 + snd (lex_match_t (lx_start st) []))%nat)).
    { unfold lex_step_t. pose proof (lex_match_erase (lx_start st) []) as ME. rewrite (lex_match_eof S) in ME. destruct (lex_match_t (lx_start st) []) as [o k]. cbn [fst snd] in *. now subst o. }
    rewrite C. cbn [Z.leb Z.compare snd]. pose proof (lex_match_cost (active_resid S) NN) as K. cbn [reach List.length] in *. lia. }
  rewrite <- ER in *. assert (NE : rest <> []) by (rewrite ER; discriminate). clear ER b0 rest0.
  destruct (lex_match_best S NN NE) as (r & n & E & B & L1 & RR). destruct (step_cost S NN B E) as [SC (ov & RE & T)].
  pose proof (credit_le S B) as CR. pose proof (reach_le rest (active (lx_start st))) as RL. assert (NL : (n <= List.length rest)%nat) by (destruct B as (B & _); exact B).
  rewrite Nat.sub_0_r in *.
  pose proof (lex_step_erase st rest) as SE. unfold lex_step in SE. rewrite E in SE. destruct (lex_step_t st rest) as [sr k]. cbn [fst snd] in *. subst sr.
  pose proof (run_rule_ok r (firstn n rest) S) as P.
  assert (TAIL : r = 188 \/ forall st', is_start (lx_start st') ->
     (match run_rule r (firstn n rest) st with Skip st1 => lx_start st1 | Ret _ _ st1 => lx_start st1 end) = lx_start st' -> (k <= 229 + 13 * n + credit (lx_start st') (skipn n rest))%nat).
  { destruct T as [T|(b & v & EW & FB & OV & BR)]; [now left|]. right. intros st' S' ES. pose proof (blanks_app v FB) as BA. rewrite <- EW in BA. destruct BR as [->|BR]; [cbn [List.length] in OV; lia|].
    unfold credit. destruct (lx_start st' =? 3) eqn:E3; [|lia]. exfalso. apply Z.eqb_eq in E3. pose proof (rule_183_2 (firstn n rest) st BR) as SAME.
    assert (S3 : lx_start st = 3) by (destruct (run_rule r (firstn n rest) st); congruence). rewrite S3 in B. destruct B as (_ & M & _). apply active_string in M. lia. }
  destruct TAIL as [R188|TAIL].
  - subst r. destruct (rule_188 (firstn n rest) st) as (st' & RS). rewrite RS. cbn [Z.leb Z.compare snd]. lia.
  - destruct (run_rule r (firstn n rest) st) as [st'|c v st'].
    + destruct P as (PS & _). specialize (TAIL st' PS eq_refl). specialize (IH st' len0 (skipn n rest) PS (skipn_NUL NN) ltac:(rewrite skipn_length; lia)).
      rewrite skipn_length in IH. destruct (lex_tokens_t f st' len0 (skipn n rest)) as [o k']. cbn [snd] in *. lia.
    + destruct P as (PS & _). specialize (TAIL st' PS eq_refl). specialize (IH st' (slen (lx_pos st')) (skipn n rest) PS (skipn_NUL NN) ltac:(rewrite skipn_length; lia)).
      rewrite skipn_length in IH. destruct (c <=? 0); [cbn [snd]; lia|]. destruct (lex_tokens_t f st' (slen (lx_pos st')) (skipn n rest)) as [o k']. cbn [snd] in *. lia.
Qed.
