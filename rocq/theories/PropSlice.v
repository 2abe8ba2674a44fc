(** Property C64: the slices that the string lengths of an accepted script cut out of it are statements of their own.

    Vocabulary: that of C19 (PropLength.v) and C63 (PropScript.v).  [stretch ts i before g stop after]: [g] are the tokens of statement [i].  [slice_from ns i], [slice_to ns i]: the sums of the
    string lengths before and up to statement [i].  [self_ending] (Late.v): the statement ends, for the byte count, with its own last token and not with the semicolon.
    [rejects sql] (Script.v): the parse fails. *)
From Verif Require Import Script PropStmt Renumber Length PropLength PropScript Slice.
From Coq Require Import ZifyBool ZifyNat ZifyN.
Local Open Scope nat_scope.
Set Implicit Arguments.
Unset Strict Implicit.

(** ** Specification *)
(** The bytes of the text from offset [lo] to offset [hi]. *)
Definition slice (text : bytes) (lo hi : Z) : bytes := firstn (Z.to_nat (hi - lo)) (skipn (Z.to_nat lo) text).
(** The slice of statement [i] begins behind the semicolon of the statement before it: it is the first, or that statement is not self-ending. *)
Definition own_start (ts : list token) (i : nat) : Prop := i = 0 \/ exists j before g stop after, i = Datatypes.S j /\ stretch ts j before g stop after /\ self_ending (map sym_of g) = false.

(** ** Tokens *)
Lemma semi_core t : tok_ok t -> sym_of t = S_semi -> core t = (59%Z, TVNone).
Proof.
  intros O E. unfold core. f_equal.
  - assert (A : forallb (fun z => if N.eqb (sym_of_code z) S_semi then Z.eqb z 59 else true) (zrange 437 0) = true) by (vm_compute; reflexivity).
    unfold sym_of in E. destruct (Z.leb_spec (t_code t) 0) as [L|L].
    + exfalso. unfold sym_of_code in E. replace (t_code t <=? 0)%Z with true in E by lia. discriminate E.
    + destruct (Z.leb_spec (t_code t) 436) as [L2|L2].
      * rewrite forallb_forall in A. specialize (A (t_code t)). cbv beta in A. rewrite E, N.eqb_refl in A. apply Z.eqb_eq, A, zrange_In. lia.
      * exfalso. unfold sym_of_code, yytranslate_of in E. replace (t_code t <=? 0)%Z with false in E by lia. unfold YYMAXUTOK in E. replace (t_code t <=? 436)%Z with false in E by lia. rewrite ?andb_false_r in E. discriminate E.
  - unfold tok_ok in O. rewrite E in O. change (symty S_semi) with TUninit in O. destruct (t_val t); tauto.
Qed.
Lemma memN_In X l : memN X l = true -> In X l.
Proof. induction l as [|Y l IH]; cbn [memN]; intro E; [discriminate E|]. apply orb_prop in E as [E|E]; [left; symmetry; now apply N.eqb_eq|right; auto]. Qed.
(** ** How statements end *)
Definition two_syms : list N := [sym_of_code TOK_CURRENT_ROW; sym_of_code TOK_CHARACTER_VARYING].
Lemma two_words_sym t : memN (sym_of t) two_syms = false -> two_words (t_code t) = false.
Proof. intro M. unfold two_words. destruct (Z.eqb_spec (t_code t) TOK_CURRENT_ROW) as [E|_]; [|destruct (Z.eqb_spec (t_code t) TOK_CHARACTER_VARYING) as [E|_]; [|reflexivity]]; unfold sym_of in M; rewrite E in M; discriminate M. Qed.
Fixpoint grow (f : list N -> N * (N * list N) -> bool) (fuel : nat) (l : list N) : list N :=
  match fuel with O => l | Datatypes.S fuel' => grow f fuel' (fold_left (fun l p => if memN (fst (snd p)) l then l else if f l p then fst (snd p) :: l else l) grammar l) end.
(** The symbols that derive the empty sequence, and those that may end with one of the two tokens. *)
Definition nullable : list N := Eval vm_compute in grow (fun l p => forallb (fun X => memN X l) (snd (snd p))) 6 [].
Fixpoint may_last (l : list N) (rhs : list N) : bool := match rhs with [] => false | X :: Xs => if may_last l Xs then true else memN X l && forallb (fun Y => memN Y nullable) Xs end.
Definition bad_last : list N := Eval vm_compute in grow (fun l p => may_last l (snd (snd p))) 30 two_syms.
Lemma nullable_ok r lhs rhs : production r = Some (lhs, rhs) -> forallb (fun X => memN X nullable) rhs = true -> memN lhs nullable = true.
Proof.
  assert (A : forallb (fun p => if forallb (fun X => memN X nullable) (snd (snd p)) then memN (fst (snd p)) nullable else true) grammar = true) by (vm_compute; reflexivity).
  rewrite forallb_forall in A. intros P H. apply production_In in P. specialize (A _ P). cbn [fst snd] in A. rewrite H in A. exact A.
Qed.
Lemma nullable_tok t : memN (sym_of t) nullable = false.
Proof. assert (A : forallb (fun X => N.leb 199 X) nullable = true) by (vm_compute; reflexivity). rewrite forallb_forall in A. destruct (memN (sym_of t) nullable) eqn:M; [|reflexivity]. exfalso. apply memN_In in M. specialize (A _ M). pose proof (sym_small t) as L. apply N.leb_le in A. lia. Qed.
Lemma last_ok r lhs rhs : production r = Some (lhs, rhs) -> may_last bad_last rhs = true -> memN lhs bad_last = true.
Proof.
  assert (A : forallb (fun p => if may_last bad_last (snd (snd p)) then memN (fst (snd p)) bad_last else true) grammar = true) by (vm_compute; reflexivity).
  rewrite forallb_forall in A. intros P H. apply production_In in P. specialize (A _ P). cbn [fst snd] in A. rewrite H in A. exact A.
Qed.
Lemma last_all : (forall X t, derives X t -> (yield t = [] -> memN X nullable = true) /\ (memN X bad_last = false -> forall w k, yield t = w ++ [k] -> memN (sym_of k) two_syms = false)) /\
  (forall Xs ts, derives_list Xs ts -> (yields ts = [] -> forallb (fun X => memN X nullable) Xs = true) /\ (may_last bad_last Xs = false -> forall w k, yields ts = w ++ [k] -> memN (sym_of k) two_syms = false)).
Proof.
  apply derives_both.
  - intros t. split; [discriminate|]. intros M w k E. destruct w as [|? [|]]; cbn in E; try discriminate E. injection E as <-.
    assert (A : forallb (fun X => memN X bad_last) two_syms = true) by (vm_compute; reflexivity). rewrite forallb_forall in A. destruct (memN (sym_of t) two_syms) eqn:Q; [|reflexivity]. apply memN_In in Q. rewrite (A _ Q) in M. discriminate M.
  - intros r X rhs ts P _ [IH1 IH2]. change (yield (Node r ts)) with (yields ts). split; [intro E; exact (nullable_ok P (IH1 E))|]. intros M. apply IH2. destruct (may_last bad_last rhs) eqn:Q; [|reflexivity]. rewrite (last_ok P Q) in M. discriminate M.
  - split; [reflexivity|]. intros _ [|? ?] k E; discriminate E.
  - intros X Xs t ts _ [I1 I2] _ [J1 J2]. change (yields (t :: ts)) with (yield t ++ yields ts). split.
    + intro E. apply app_eq_nil in E as [E1 E2]. cbn [forallb]. now rewrite (I1 E1), (J1 E2).
    + cbn [may_last]. intros M w k E. destruct (may_last bad_last Xs) eqn:Q; [discriminate M|]. destruct (yields ts) as [|k' ws _] eqn:Y using rev_ind.
      * rewrite app_nil_r in E. rewrite (J1 eq_refl), andb_true_r in M. exact (I2 M _ _ E).
      * rewrite app_assoc in E. apply app_inj_tail in E as [_ ->]. exact (J2 eq_refl _ _ eq_refl).
Qed.
Lemma statement_last s w k : derives S_statement s -> yield s = w ++ [k] -> two_words (t_code k) = false.
Proof. intros D E. apply two_words_sym. eapply (proj1 last_all _ _ D); [vm_compute; reflexivity|exact E]. Qed.
Lemma statement_some s : derives S_statement s -> yield s <> [].
Proof. intros D E. pose proof (proj1 (proj1 last_all _ _ D) E) as M. vm_compute in M. discriminate M. Qed.
(** No statement list begins with a semicolon. *)
Lemma list_first tl : derives S_statement_list tl -> exists k w, yield tl = k :: w /\ is_semi k = false.
Proof.
  intro D. assert (G : forall n t, derives S_statement_list t -> tree_size t <= n -> exists k w, yield t = k :: w /\ is_semi k = false); [|exact (G _ tl D (le_n _))].
  clear. induction n as [|n IH]; intros t DT L; [destruct t as [|? [|]]; cbn in L; lia|]. destruct (list_root DT) as (r & us & -> & RR). inversion DT as [|? ? rhs ? P DL]; subst.
  destruct (N.eqb_spec r 3) as [->|_]; [|destruct (N.eqb_spec r 4) as [->|_]; [|discriminate RR]]; clear RR.
  - assert (PR : production 3 = Some (S_statement_list, [S_statement])) by reflexivity. rewrite PR in P. injection P as <-. inversion DL as [|? ? s0 ? DS DN]; subst. inversion DN; subst.
    pose proof (statement_some DS) as NE. pose proof (proj1 no_semi_all _ _ DS eq_refl) as NS. assert (Y : yield (Node 3 [s0]) = yield s0) by (cbn; apply app_nil_r). rewrite Y. destruct (yield s0) as [|k w]; [congruence|]. exists k, w. split; [reflexivity|]. apply (semis_none NS). now left.
  - assert (PR : production 4 = Some (S_statement_list, [S_statement_list; S_semi; S_statement])) by reflexivity. rewrite PR in P. injection P as <-.
    inversion DL as [|? ? t1 ? D1 DN]; subst. destruct (IH t1 D1) as (k & w & E & F); [cbn in L; lia|]. exists k, (w ++ yields ts). cbn [yield flat_map]. rewrite E. auto.
Qed.
Lemma semicolon_first text l : cores text ((59%Z, TVNone) :: l) -> rejects text.
Proof.
  intros (ts & T & E) buf0 r e PE. destruct (e_valid e) eqn:V; [|reflexivity]. exfalso.
  apply (parse_valid (B := fun _ => 0) (e0 := fresh_env) T eq_refl eq_refl heap_fresh PE) in V. destruct V as (l' & n & a & b & k & (D & Y & _) & _).
  inversion D as [|? ? ? ? PR DL]; subst. rewrite production_2 in PR. injection PR as <-. inversion DL as [|? ? ? ? D1 DL1]; subst. destruct (list_first D1) as (q & w & YQ & SQ).
  cbn [yield flat_map] in E. rewrite YQ in E. cbn [app map] in E. injection E as E _ _. unfold is_semi in SQ. unfold sym_of in SQ. rewrite E in SQ. discriminate SQ.
Qed.

(** ** Neighbouring stretches *)
Lemma last_semi w : exists b g, w = b ++ g /\ (b = [] \/ exists v k, b = v ++ [k] /\ is_semi k = true) /\ semis g = 0.
Proof.
  induction w as [|k w IH] using rev_ind; [exists [], []; auto|]. destruct (is_semi k) eqn:K; [exists (w ++ [k]), []; split; [now rewrite app_nil_r|]; split; [right; eauto|reflexivity]|].
  destruct IH as (b & g & -> & B & G). exists b, (g ++ [k]). split; [now rewrite app_assoc|]. split; [exact B|]. rewrite semis_app, G. unfold semis. cbn [filter]. now rewrite K.
Qed.
Lemma stretch_prev ts j before g stop after b' g' s' a' : ends_eof ts -> stretch ts (Datatypes.S j) before g stop after -> stretch ts j b' g' s' a' -> before = b' ++ g' ++ [s'].
Proof.
  intros EE [A1 A2 A3 A4 A5] ST. destruct A3 as [->|(w & k & -> & K)]; [discriminate A2|]. destruct (last_semi w) as (b & h & -> & B & H).
  assert (ST' : stretch ts j b h k (g ++ stop :: after)).
  { constructor; auto; [rewrite A1, <- !app_assoc; reflexivity|]. rewrite !semis_app, H in A2. unfold semis at 2 in A2. cbn [filter] in A2. rewrite K in A2. cbn in A2. lia. }
  destruct (stretch_unique EE ST ST') as (-> & -> & -> & _). now rewrite <- app_assoc.
Qed.

(** ** The text of a slice *)
Lemma core_cores st text ts : is_start (lx_start st) -> lx_start st = 1%Z -> ~ In NUL text -> forall len, lex_from st len text = Some ts -> cores text (map core ts).
Proof.
  intros S S1 N len E. apply (lexes_cores _ _ N). apply (@lexes_buf 1 (lx_buf st)); [discriminate|exact N|]. rewrite <- S1. exact (lex_from_lexes S N E).
Qed.
Lemma slice_text x1 x2 y : slice (x1 ++ x2 ++ y) (size x1) (size (x1 ++ x2)) = x2.
Proof.
  unfold slice, size. rewrite Nat2Z.id, skipn_app, skipn_all2, Nat.sub_diag by lia. cbn [app skipn]. rewrite app_length. replace (Z.to_nat (Z.of_nat (List.length x1 + List.length x2) - Z.of_nat (List.length x1))) with (List.length x2) by lia.
  rewrite firstn_app, Nat.sub_diag, firstn_O, firstn_all, app_nil_r. reflexivity.
Qed.
Lemma slice_cores sql P M Q : tokens sql (P ++ M ++ Q) -> M <> [] -> (forall w k, P = w ++ [k] -> two_words (t_code k) = false) ->
  cores (slice (c_string sql) (total_len P) (total_len (P ++ M))) (map core M ++ match Q with [] => [] | _ => [(0%Z, TVNone)] end).
Proof.
  intros T NM LP. unfold tokens, lex_all in T. change (lex_from (lex_init []) 0 (c_string sql) = Some (P ++ M ++ Q)) in T. pose proof (@c_string_NUL sql) as N. set (text := c_string sql) in *. clearbody text.
  assert (K : exists x1 y1 st1 len1, text = x1 ++ y1 /\ size x1 = total_len P /\ is_start (lx_start st1) /\ lx_start st1 = 1%Z /\ len1 = total_len P /\ slen (lx_pos st1) = len1 /\ lex_from st1 len1 y1 = Some (M ++ Q)).
  { destruct P as [|p0 P0] eqn:EP; [exists [], text, (lex_init []), 0%Z; repeat split; auto; left; reflexivity|]. rewrite <- EP in *. destruct (@lex_cut (lex_init []) text (or_introl eq_refl) N 0 P (M ++ Q) T) as (x & y & E & SX & _ & CN); [rewrite EP; discriminate|].
    destruct CN as (_ & st2 & S2 & L2 & S3 & S4); [destruct M; [congruence|discriminate]|]. exists x, y, st2, (0 + total_len P)%Z. split; [exact E|]. split; [exact SX|]. split; [exact S2|]. split; [|auto].
    destruct P as [|k w _] using rev_ind; [discriminate EP|]. exact (S4 _ _ eq_refl (LP _ _ eq_refl)). }
  destruct K as (x1 & y1 & st1 & len1 & -> & S1 & ST & S0 & EL & SL & LX). assert (N1 : ~ In NUL y1) by (intro I; apply N; apply in_or_app; now right).
  destruct (@lex_cut st1 y1 ST N1 len1 M Q LX NM) as (x2 & y2 & -> & SX & CQ & CN). assert (N2 : ~ In NUL x2) by (intro I; apply N1; apply in_or_app; now left).
  replace (total_len (P ++ M)) with (size (x1 ++ x2)) by (rewrite size_app, total_app; lia). rewrite <- S1, slice_text. destruct Q as [|q Q].
  - rewrite app_nil_r. exact (core_cores ST S0 N2 (CQ eq_refl)).
  - destruct CN as ((te & EN & CE) & _); [discriminate|]. pose proof (core_cores ST S0 N2 EN) as C. rewrite map_app in C. cbn [map] in C. rewrite CE in C. exact C.
Qed.

(** ** The theorem *)
(** Each slice, taken alone, is accepted and gives its statement, with the parameters counted from zero; except behind a self-ending statement, where the slice begins with that
    statement's semicolon and is rejected. *)
Theorem C64_slice : forall buf0 sql ts e, tokens sql ts -> parse buf0 sql fresh_env = PRet 0 e ->
  exists ns, map stringLength (e_stmts e) = map Some ns /\
    forall i before g stop after, i < List.length ns -> stretch ts i before g stop after ->
    let text := slice (c_string sql) (slice_from ns i) (slice_to ns i) in
    (own_start ts i -> exists s, accepted_with text [s] (qmarks g) /\ nth_error (map erase (e_stmts e)) i = Some (ren (Z.of_nat (qmarks before)) s)) /\
    (~ own_start ts i -> (exists l, cores text ((59%Z, TVNone) :: l)) /\ rejects text).
Proof.
  intros buf0 sql ts e T PE. destruct (C19_slices buf0 sql ts e T PE) as (ns & EN & SL & _). exists ns. split; [exact EN|]. intros i bf g stop after LI ST text.
  pose proof (tokens_eof T) as EE. assert (A : accepted_with sql (map erase (e_stmts e)) (List.length (e_params e))).
  { apply evaluated. exists e. unfold parse in PE |- *. rewrite lex_all_buf in PE. split; [exact PE|]. split; [|auto]. destruct (lex_all [] sql) as [us|]; [|discriminate PE]. destruct (yyparse us fresh_env) as [r1 e1| |]; try discriminate PE. injection PE as -> <-. reflexivity. }
  assert (LL : List.length (map erase (e_stmts e)) = List.length ns) by (apply (f_equal (@List.length _)) in EN; rewrite !map_length in *; exact EN).
  destruct (tokens_total sql) as (ts' & T' & _ & OK & _). assert (ts' = ts) by (unfold tokens in T, T'; congruence). subst ts'. clear T'.
  destruct (SL i LI) as (bf' & g' & stop' & after' & ST' & SE & _ & _). destruct (stretch_unique EE ST ST') as (<- & <- & <- & <-). clear ST'.
  pose proof (st_all _ _ _ _ _ _ ST) as SA.
  (* the statements as trees *)
  destruct (accepted_parts T A) as (tl & sm & k & _ & _ & _ & PA).
  assert (LASTG : forall j b h s a w q, j < List.length ns -> stretch ts j b h s a -> h = w ++ [q] -> two_words (t_code q) = false).
  { intros j b h s a w q LJ SJ EH. destruct (PA j) as (b' & h' & s' & a' & SJ' & t & x & v & (rest & PT) & _); [lia|]. destruct (stretch_unique EE SJ SJ') as (<- & <- & <- & <-). eapply statement_last; [exact (pa_derives PT)|]. rewrite (pa_yield PT). exact EH. }
  assert (SEMI : forall q, In q ts -> is_semi q = true -> core q = (59%Z, TVNone) /\ two_words (t_code q) = false).
  { intros q I Q. assert (C : core q = (59%Z, TVNone)) by (apply semi_core; [rewrite Forall_forall in OK; auto|now apply N.eqb_eq in Q]). split; [exact C|]. unfold core in C. injection C as C _. rewrite C. reflexivity. }
  assert (INS : In stop ts) by (rewrite SA; apply in_or_app; right; apply in_or_app; right; now left).
  (* the tail of the slice *)
  assert (TAIL : exists b M Q, ts = bf ++ M ++ Q /\ slice_to ns i = total_len (bf ++ M) /\ M <> [] /\ map core M ++ match Q with [] => [] | _ => [(0%Z, TVNone)] end = map core g ++ semicolon b ++ [(0%Z, TVNone)]).
  { destruct (self_ending (map sym_of g)) eqn:SF.
    - exists false, g, (stop :: after). split; [exact SA|]. split; [exact SE|]. split; [intros ->; discriminate SF|reflexivity].
    - destruct after as [|q after].
      + exists false, (g ++ [stop]), []. split; [rewrite SA, app_nil_r; reflexivity|]. split; [exact SE|]. split; [destruct g; discriminate|]. rewrite app_nil_r, map_app. cbn [semicolon app map]. f_equal. f_equal.
        destruct (lex_all_codes T) as (w & z & EZ & C0 & CV & _). rewrite SA, app_assoc in EZ. apply app_inj_tail in EZ as [_ ->]. unfold core. congruence.
      + exists true, (g ++ [stop]), (q :: after). split; [rewrite SA, <- !app_assoc; reflexivity|]. split; [exact SE|]. split; [destruct g; discriminate|]. rewrite map_app, <- app_assoc. cbn [semicolon app map]. f_equal. f_equal.
        apply SEMI; [exact INS|]. destruct (st_stop _ _ _ _ _ _ ST) as [X|X]; [exact X|]. exfalso. apply sym_end in X. assert (0 < t_code stop)%Z; [|lia]. eapply (ends_mid _ EE (bf ++ g) stop (q :: after)); [rewrite SA, <- app_assoc; reflexivity|discriminate]. }
  destruct TAIL as (b & M & Q & TE & TT & NM & CM).
  assert (OWN : slice_from ns i = total_len bf -> exists s, accepted_with text [s] (qmarks g) /\ nth_error (map erase (e_stmts e)) i = Some (ren (Z.of_nat (qmarks bf)) s)).
  { intro FR. apply (C63_split T A (i := i) (before := bf) (g := g) (stop := stop) (after := after)) with (b := b); [lia|exact ST|]. unfold text. rewrite FR, TT, <- CM. apply slice_cores; [rewrite <- TE; exact T|exact NM|].
    intros w q EW. destruct (st_start _ _ _ _ _ _ ST) as [E0|(w' & q' & EW' & SQ)]; [rewrite E0 in EW; destruct w; discriminate EW|]. rewrite EW' in EW. apply app_inj_tail in EW as [_ <-]. apply SEMI; [|exact SQ]. rewrite SA, EW'. apply in_or_app. left. apply in_or_app. right. now left. }
  destruct i as [|j].
  - assert (E0 : bf = []) by (destruct (st_start _ _ _ _ _ _ ST) as [E0|(w' & q' & EW' & SQ)]; [exact E0|]; pose proof (st_before _ _ _ _ _ _ ST) as SB; assert (0 < semis bf); [|lia]; apply (@semis_in _ q'); [rewrite EW'; apply in_or_app; right; now left|exact SQ]).
    split; [intros _; apply OWN; rewrite E0; reflexivity|]. intro NO. exfalso. apply NO. now left.
  - destruct (SL j) as (b' & g' & s' & a' & SJ & SEJ & _ & _); [lia|]. pose proof (stretch_prev EE ST SJ) as BF. change (slice_to ns j) with (slice_from ns (Datatypes.S j)) in SEJ. destruct (self_ending (map sym_of g')) eqn:SF.
    + split.
      * intros [O|(j2 & b2 & g2 & s2 & a2 & EJ & SJ2 & SF2)]; [discriminate O|]. injection EJ as <-. destruct (stretch_unique EE SJ SJ2) as (_ & <- & _). rewrite SF in SF2. discriminate SF2.
      * intros _. assert (IS : is_semi s' = true). { destruct (st_start _ _ _ _ _ _ ST) as [E0|(w' & q' & EW' & SQ)]; [pose proof (st_before _ _ _ _ _ _ ST) as SB; rewrite E0 in SB; discriminate SB|]. rewrite BF, app_assoc in EW'. apply app_inj_tail in EW' as [_ ->]. exact SQ. }
        assert (CS : cores text ((59%Z, TVNone) :: map core M ++ match Q with [] => [] | _ => [(0%Z, TVNone)] end)).
        { assert (CQ : core s' = (59%Z, TVNone)) by (apply SEMI; [rewrite SA, BF; apply in_or_app; left; apply in_or_app; right; apply in_or_app; right; now left|exact IS]).
          assert (TE' : ts = (b' ++ g') ++ (s' :: M) ++ Q) by (rewrite TE, BF, <- !app_assoc; reflexivity). unfold text. rewrite SEJ, TT, BF. replace ((b' ++ g' ++ [s']) ++ M) with ((b' ++ g') ++ s' :: M) by (rewrite <- !app_assoc; reflexivity).
          rewrite <- CQ. change (core s' :: map core M ++ ?z) with (map core (s' :: M) ++ z). apply slice_cores; [rewrite <- TE'; exact T|discriminate|].
          intros w q EW. destruct g' as [|q' w' _] using rev_ind; [discriminate SF|]. rewrite app_assoc in EW. apply app_inj_tail in EW as [_ <-]. apply (@LASTG j b' (w' ++ [q']) s' a' w' q'); [lia|exact SJ|reflexivity]. }
        split; [eauto|exact (semicolon_first CS)].
    + split; [intros _; apply OWN; rewrite SEJ, BF; reflexivity|]. intro NO. exfalso. apply NO. right. exists j, b', g', s', a'. auto.
Qed.
(** A sample: the slices of a script; the second one begins with the semicolon of SHOW TABLES. *)
Definition sliced : bytes := la "SHOW TABLES; SELECT ? FROM t ; DELETE FROM u WHERE a = ?;".
Example C64_example : exists e, parse [] sliced fresh_env = PRet 0 e /\ map stringLength (e_stmts e) = map Some [11; 19; 27]%Z /\
  slice sliced 0 11 = la "SHOW TABLES" /\ slice sliced 11 30 = la "; SELECT ? FROM t ;" /\ slice sliced 30 57 = la " DELETE FROM u WHERE a = ?;" /\
  nth 2 (stmts_of sliced) VNull = ren 1 (nth 0 (stmts_of (slice sliced 30 57)) VNull) /\ nth 2 (stmts_of sliced) VNull <> nth 0 (stmts_of (slice sliced 30 57)) VNull /\ stmts_of (slice sliced 11 30) = [].
Proof. eexists. split; [vm_compute; reflexivity|]. split; [vm_compute; reflexivity|]. split; [vm_compute; reflexivity|]. split; [vm_compute; reflexivity|]. split; [vm_compute; reflexivity|]. split; [vm_compute; reflexivity|]. split; [vm_compute; discriminate|vm_compute; reflexivity]. Qed.
Example C64_own : exists ts, tokens sliced ts /\ own_start ts 2 /\ ~ own_start ts 1.
Proof.
  set (ts := match lex_all [] sliced with Some ts => ts | None => [] end). exists ts. assert (T : tokens sliced ts) by (vm_compute; reflexivity). split; [exact T|].
  assert (S0 : stretch ts 0 [] (firstn 2 ts) (nth 2 ts (mk (0%Z, TVNone))) (skipn 3 ts)) by (constructor; [vm_compute; reflexivity|vm_compute; reflexivity|now left|vm_compute; reflexivity|left; vm_compute; reflexivity]).
  assert (S1 : stretch ts 1 (firstn 3 ts) (firstn 4 (skipn 3 ts)) (nth 7 ts (mk (0%Z, TVNone))) (skipn 8 ts)).
  { constructor; [vm_compute; reflexivity|vm_compute; reflexivity| |vm_compute; reflexivity|left; vm_compute; reflexivity]. right. exists (firstn 2 ts), (nth 2 ts (mk (0%Z, TVNone))). split; vm_compute; reflexivity. }
  split.
  - right. exists 1, (firstn 3 ts), (firstn 4 (skipn 3 ts)), (nth 7 ts (mk (0%Z, TVNone))), (skipn 8 ts). split; [reflexivity|]. split; [exact S1|vm_compute; reflexivity].
  - intros [O|(j & b & g & s & a & E & ST & SF)]; [discriminate O|]. injection E as <-. destruct (stretch_unique (tokens_eof T) S0 ST) as (_ & <- & _). vm_compute in SF. discriminate SF.
Qed.
