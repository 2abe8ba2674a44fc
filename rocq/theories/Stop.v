(** Where the scanner stops, and that what follows does not matter.  No code of /repo. *)
From Verif Require Import PropLex.
From Verif Require Import ParseProof LexMatch LexRel LexTotal LexScan LexWords LexTok LexCert TableCheck.
From Coq Require Import ZifyBool ZifyNat ZifyN.
Local Open Scope Z_scope.
Set Implicit Arguments.
Unset Strict Implicit.

(** ** Bytes of the same class lead to the same residual rules *)
Lemma after_resid_state w : forall s l, resid s = Some l -> ~ In NUL w -> after l w = [] \/ exists s', resid s' = Some (after l w).
Proof.
  induction w as [|c w IH]; intros s l R N; [right; exists s; exact R|]. cbn [after].
  assert (C : c <> NUL) by (intros ->; apply N; now left). assert (N' : ~ In NUL w) by (intro I; apply N; now right).
  destruct (state_facts R) as (F & _ & _). destruct (F c C) as (e & t & _ & _ & [[_ E]|(_ & _ & R')]); [rewrite E, after_nil; now left|]. eapply IH; eassumption.
Qed.
Lemma same_class s w c d : is_start s -> ~ In NUL w -> c <> NUL -> d <> NUL -> get yy_ec (bz c) = get yy_ec (bz d) -> steps c (after (active s) w) = steps d (after (active s) w).
Proof.
  intros ST N NC ND E. destruct (after_resid_state (active_resid ST) N) as [->|[s' R]]; [reflexivity|]. destruct (state_facts R) as (F & _ & _).
  destruct (F c NC) as (e & t & E1 & T1 & C1), (F d ND) as (e' & t' & E2 & T2 & C2). assert (e = e') by congruence. subst e'. assert (t = t') by congruence. subst t'.
  destruct C1 as [[J1 S1]|(J1 & S1 & R1)], C2 as [[J2 S2]|(J2 & S2 & R2)]; congruence.
Qed.
(** The bytes at which no token can begin fall into four classes. *)
Definition samples : list Z := [33; 34; 35; 95].
Lemma unknown_samples : forallb (fun z => if unknown (byte z) then existsb (fun y => opt_eqb (get yy_ec z) (get yy_ec y)) samples else true) (zrange 255 1) = true.
Proof. vm_compute. reflexivity. Qed.
Lemma unknown_class c : c <> NUL -> unknown c = true -> exists d, In d (map byte samples) /\ get yy_ec (bz c) = get yy_ec (bz d).
Proof.
  intros N U. pose proof (proj1 (forallb_forall _ _) unknown_samples _ (byte_range N)) as A. cbn beta in A. rewrite byte_bz, U in A. apply existsb_exists in A as (y & I & E).
  exists (byte y). split; [apply in_map; exact I|]. assert (bz (byte y) = y) as -> by (cbn in I; destruct I as [<-|[<-|[<-|[<-|[]]]]]; reflexivity).
  destruct (get yy_ec (bz c)), (get yy_ec y); try discriminate E; [|reflexivity]. cbn [opt_eqb] in E. f_equal. lia.
Qed.
(** After any text, one more such byte is either matched at once or not at all, unless a quoted identifier is open (outside comments). *)
Definition at_once (l : rules) : bool := match l with [] => true | _ => match first_nullable l with Some _ => true | None => false end end.
Definition stop_ok (l : rules) : bool := if has 182 l then if has 2 l then forallb (fun z => at_once (steps (byte z) l)) samples else true else forallb (fun z => at_once (steps (byte z) l)) samples.
Lemma stop_all : forallb (fun p => stop_ok (snd p)) resid_list = true.
Proof. vm_cast_no_check (eq_refl true). Qed.
Lemma stop_once s w c : is_start s -> ~ In NUL w -> c <> NUL -> unknown c = true -> (has 182 (after (active s) w) = true -> has 2 (after (active s) w) = true) -> at_once (steps c (after (active s) w)) = true.
Proof.
  intros ST N NC U H. destruct (unknown_class NC U) as (d & I & E). assert (ND : d <> NUL) by (intros ->; cbn in I; intuition discriminate).
  rewrite (same_class ST N NC ND E). pose proof (@after_check stop_ok eq_refl stop_all s w ST N) as S. unfold stop_ok in S.
  assert (A : forallb (fun z => at_once (steps (byte z) (after (active s) w))) samples = true) by (destruct (has 182 _); [rewrite (H eq_refl) in S|]; exact S).
  apply in_map_iff in I as (z & <- & I). exact (proj1 (forallb_forall _ _) A _ I).
Qed.
(** The text behind such a byte, and the byte itself, can be replaced. *)
Definition cut (rest : bytes) (c : ascii) : Prop := rest = [] \/ exists y, rest = c :: y.
Lemma stop_step s a c x y r n : is_start s -> ~ In NUL a -> c <> NUL -> unknown c = true -> cut y c -> best (active s) (a ++ c :: x) r n -> (1 <= n <= List.length a)%nat -> r <> 188 -> best (active s) (a ++ y) r n.
Proof.
  intros ST N NC U CY B L R. apply (best_replace B (proj2 L)).
  intros v y2 r' EY NV M. exists [c], x. destruct CY as [->|[y' ->]]; [destruct v; [congruence|discriminate EY]|]. destruct v as [|d v]; [congruence|]. injection EY as <- _.
  assert (FA : firstn n (a ++ c :: x) = firstn n a) by (rewrite firstn_app; replace (n - List.length a)%nat with 0%nat by lia; rewrite firstn_O; apply app_nil_r).
  assert (C182 : has 182 (after (active s) a) = true -> has 2 (after (active s) a) = true).
  { intro H. pose proof (best_first ST B) as FN. rewrite FA in FN. assert (NP : ~ In NUL (firstn n a)) by (intro I; apply N; rewrite <- (firstn_skipn n a); apply in_or_app; now left).
    assert (H1 : has 182 (after (active s) (firstn n a)) = true) by (rewrite <- (firstn_skipn n a) in H; apply has_prefix in H; exact H).
    pose proof (@first_after 182 ok182 s _ ok182_all ST NP H1) as K. rewrite FN in K. cbn [ok182] in K. assert (r = 2) by lia. subst r.
    assert (s = 5) as ->. { destruct B as (_ & B & _). apply matched_rule in B as [_ [B|B]]; [lia|]. rewrite where_2 in B. cbn [applies] in B. lia. }
    exact (has_2_182 N H). }
  pose proof (stop_once ST N NC U C182) as A. change (c :: v) with ([c] ++ v) in M. rewrite <- after_ok in M. rewrite after_1 in M.
  destruct (steps c (after (active s) a)) as [|p l] eqn:ES; [destruct M as (? & [] & _)|]. unfold at_once in A. destruct (first_nullable (p :: l)) as [q|] eqn:FN; [|discriminate A].
  exists q. split; [reflexivity|]. split; [discriminate|]. rewrite <- ES, <- after_1 in FN. exact (first_matched FN).
Qed.

(** ** The same tokens, with their positions *)
(** [goes st len rest l st' len' rest']: the scanner, in state [st] at [rest], delivers the tokens [l] and is then in state [st'] at [rest']. *)
Inductive goes : lexst -> Z -> bytes -> list token -> lexst -> Z -> bytes -> Prop :=
| go_refl : forall st len rest, is_start (lx_start st) -> goes st len rest [] st len rest
| go_skip : forall st len rest r n st1 l st' len' rest', is_start (lx_start st) -> best (active (lx_start st)) rest r n -> 1 <= r <= 189 -> (1 <= n)%nat ->
    run_rule r (firstn n rest) st = Skip st1 -> goes st1 len (skipn n rest) l st' len' rest' -> goes st len rest l st' len' rest'
| go_tok : forall st len rest r n c v st1 l st' len' rest', is_start (lx_start st) -> best (active (lx_start st)) rest r n -> 1 <= r <= 189 -> (1 <= n)%nat ->
    run_rule r (firstn n rest) st = Ret c v st1 -> 0 < c -> goes st1 (slen (lx_pos st1)) (skipn n rest) l st' len' rest' ->
    goes st len rest (mkTok c v (lx_pos st1) (slen (lx_pos st1) - len) :: l) st' len' rest'.
Lemma step_best st rest r n : is_start (lx_start st) -> ~ In NUL rest -> best (active (lx_start st)) rest r n -> (1 <= n)%nat ->
  lex_step st rest = match run_rule r (firstn n rest) st with Skip st' => StepSkip st' (skipn n rest) | Ret c v st' => StepTok c v st' (skipn n rest) end.
Proof.
  intros ST N B L. destruct (lex_step_total ST N) as [[-> E]|(r' & n' & B' & L1 & R & E)]; [destruct B as [B _]; cbn in B; lia|]. destruct (best_unique B B') as [<- <-]. exact E.
Qed.
Lemma goes_from st len rest l st' len' rest' : goes st len rest l st' len' rest' -> ~ In NUL rest ->
  lex_from st len rest = ts <-o lex_from st' len' rest' ; Some (l ++ ts).
Proof.
  induction 1 as [st len rest ST|st len rest r n st1 l st' len' rest' ST B R L E H IH|st len rest r n c v st1 l st' len' rest' ST B R L E C H IH]; intro N.
  - destruct (lex_from st len rest); reflexivity.
  - rewrite (lex_from_eq len ST N), (step_best ST N B L), E. apply IH. now apply skipn_NUL.
  - rewrite (lex_from_eq len ST N), (step_best ST N B L), E. cbv zeta. replace (c <=? 0) with false by lia. rewrite IH by now apply skipn_NUL. destruct (lex_from st' len' rest'); reflexivity.
Qed.
Lemma goes_start st len rest l st' len' rest' : goes st len rest l st' len' rest' -> is_start (lx_start st').
Proof. induction 1; assumption. Qed.
Lemma goes_suffix st len rest l st' len' rest' : goes st len rest l st' len' rest' -> exists a, rest = a ++ rest'.
Proof.
  induction 1 as [st len rest ST|st len rest r n st1 l st' len' rest' ST B R L E H [a IH]|st len rest r n c v st1 l st' len' rest' ST B R L E C H [a IH]]; [exists []; reflexivity| |];
    exists (firstn n rest ++ a); rewrite <- app_assoc, <- IH; symmetry; apply firstn_skipn.
Qed.
Lemma scans_goes s buf rest l s' buf' rest' : scans s buf rest l s' buf' rest' -> forall p len, exists l2 p' len', goes (mkLex s buf p) len rest l2 (mkLex s' buf' p') len' rest' /\ map core l2 = l.
Proof.
  induction 1 as [s buf rest ST|s buf rest r n st1 l s' buf' rest' ST NE B R N E H IH|s buf rest r n c v st1 l s' buf' rest' ST NE B R N E C H IH]; intros p len.
  - exists [], p, len. split; [apply go_refl; exact ST|reflexivity].
  - pose proof (run_rule_pos r (firstn n rest) s buf p pos0) as Q. rewrite E in Q. destruct (run_rule r (firstn n rest) (mkLex s buf p)) as [st2|c v st2] eqn:E2; [|contradiction]. destruct Q as [Q1 Q2].
    destruct (IH (lx_pos st2) len) as (l2 & p' & len' & G & M). exists l2, p', len'. split; [|exact M]. eapply go_skip with (r := r) (n := n); eauto. rewrite <- Q1, <- Q2 in G. destruct st2; exact G.
  - pose proof (run_rule_pos r (firstn n rest) s buf p pos0) as Q. rewrite E in Q. destruct (run_rule r (firstn n rest) (mkLex s buf p)) as [st2|c2 v2 st2] eqn:E2; [contradiction|]. destruct Q as (-> & -> & Q1 & Q2).
    destruct (IH (lx_pos st2) (slen (lx_pos st2))) as (l2 & p' & len' & G & M). exists (mkTok c v (lx_pos st2) (slen (lx_pos st2) - len) :: l2), p', len'. split; [|cbn [map]; rewrite M; reflexivity]. eapply go_tok with (r := r) (n := n); eauto. rewrite <- Q1, <- Q2 in G. destruct st2; exact G.
Qed.
Lemma goes_stop c x y : c <> NUL -> unknown c = true -> cut y c -> forall st len rest l st' len' rest', goes st len rest l st' len' rest' -> forall a, ~ In NUL a -> rest = a ++ c :: x -> rest' = c :: x -> goes st len (a ++ y) l st' len' y.
Proof.
  intros NC U CY st len rest l st' len' rest' H. induction H as [st len rest ST|st len rest r n st1 l st' len' rest' ST B R L E H IH|st len rest r n k v st1 l st' len' rest' ST B R L E C H IH]; intros a N ER ER'.
  - subst rest. assert (a = []) as ->. { apply (f_equal (@List.length ascii)) in ER'. rewrite app_length in ER'. destruct a; [reflexivity|]. cbn in ER'. lia. } apply go_refl. exact ST.
  - destruct (goes_suffix H) as [a2 E2]. subst rest rest'. destruct B as (LB & MB & FB). assert (LE : (n <= List.length a)%nat). { apply (f_equal (@List.length ascii)) in E2. rewrite skipn_length, !app_length in E2. rewrite app_length in LB. lia. }
    assert (FA : forall z, firstn n (a ++ z) = firstn n a) by (intro z; rewrite firstn_app; replace (n - List.length a)%nat with 0%nat by lia; rewrite firstn_O; apply app_nil_r).
    assert (SA : forall z, skipn n (a ++ z) = skipn n a ++ z) by (intro z; rewrite skipn_app; replace (n - List.length a)%nat with 0%nat by lia; reflexivity).
    eapply go_skip with (r := r) (n := n); [exact ST| |exact R|exact L|rewrite FA in E |- *; exact E|].
    + eapply stop_step; [exact ST|exact N|exact NC|exact U|exact CY|split; [exact LB|split; [exact MB|exact FB]]|lia|]. intros ->. unfold run_rule in E. cbn in E. discriminate E.
    + rewrite SA. apply IH; [now apply skipn_NUL|apply SA|reflexivity].
  - destruct (goes_suffix H) as [a2 E2]. subst rest rest'. destruct B as (LB & MB & FB). assert (LE : (n <= List.length a)%nat). { apply (f_equal (@List.length ascii)) in E2. rewrite skipn_length, !app_length in E2. rewrite app_length in LB. lia. }
    assert (FA : forall z, firstn n (a ++ z) = firstn n a) by (intro z; rewrite firstn_app; replace (n - List.length a)%nat with 0%nat by lia; rewrite firstn_O; apply app_nil_r).
    assert (SA : forall z, skipn n (a ++ z) = skipn n a ++ z) by (intro z; rewrite skipn_app; replace (n - List.length a)%nat with 0%nat by lia; reflexivity).
    eapply go_tok with (r := r) (n := n); [exact ST| |exact R|exact L|rewrite FA in E |- *; exact E|exact C|].
    + eapply stop_step; [exact ST|exact N|exact NC|exact U|exact CY|split; [exact LB|split; [exact MB|exact FB]]|lia|]. intros ->. unfold run_rule in E. cbn in E. injection E as E _ _. lia.
    + rewrite SA. apply IH; [now apply skipn_NUL|apply SA|reflexivity].
Qed.

(** ** Where it stops *)
(** No token begins at the beginning of [rest]. *)
Definition no_token (rest : bytes) : Prop :=
  exists c x, rest = c :: x /\ unknown c = true /\ (c = "!"%char -> starts (byte_eqb "="%char) x = false) /\
    (c = DQUOTE -> forall w y, w <> [] -> ~ In DQUOTE w -> ~ In LF w -> x <> w ++ DQUOTE :: y).
Definition live (l : rules) : rules := filter (fun p => match snd p with Eps => false | _ => true end) l.
Definition live_ok (s : Z) (z : Z) : bool := if unknown (byte z) then if z =? 33 then true else if z =? 34 then true else match live (steps (byte z) (active s)) with [] => true | _ => false end else true.
Lemma live_1 : forallb (live_ok 1) (zrange 255 1) = true. Proof. vm_cast_no_check (eq_refl true). Qed.
Lemma live_bang : live (steps "!"%char (active 1)) = [(172, Cls false [(61, 61)])]. Proof. vm_compute. reflexivity. Qed.
Lemma live_quote : live (steps DQUOTE (active 1)) = [(182, Cat (Cat (Cls true [(34, 34); (10, 10)]) (Star (Cls true [(34, 34); (10, 10)]))) (Cls false [(34, 34)]))]. Proof. vm_compute. reflexivity. Qed.
Lemma matched_live l r w : w <> [] -> matched l r w -> matched (live l) r w.
Proof. intros NE (x & I & M). exists x. split; [|exact M]. apply filter_In. split; [exact I|]. cbn [snd]. destruct x; try reflexivity. inversion M. congruence. Qed.
Lemma unknown_first : forallb (fun z => if unknown (byte z) then opt_eqb (first_nullable (steps (byte z) (active 1))) (Some 188) else true) (zrange 255 1) = true. Proof. vm_cast_no_check (eq_refl true). Qed.
Lemma stop_best rest r n : ~ In NUL rest -> no_token rest -> best (active 1) rest r n -> r = 188 /\ n = 1%nat.
Proof.
  intros N (c & x & -> & U & BG & QU) B. assert (NC : c <> NUL) by (intros ->; apply N; now left). pose proof (best_first (or_introl eq_refl) B) as F.
  pose proof (proj1 (forallb_forall _ _) unknown_first _ (byte_range NC)) as F1. cbn beta in F1. rewrite byte_bz, U in F1.
  assert (M1 : exists q, first_nullable (steps c (active 1)) = Some q /\ q = 188). { clear F. destruct (first_nullable (steps c (active 1))) as [q|]; [|discriminate F1]. exists q. split; [reflexivity|]. cbn [opt_eqb] in F1. lia. } destruct M1 as (q & M1 & ->).
  destruct B as (LB & MB & FB). assert (n >= 1)%nat as N1. { destruct (FB 188 1%nat) as [K _]; [cbn; lia| |lia]. cbn [firstn]. rewrite <- after_1 in M1. exact (first_matched M1). }
  destruct n as [|[|n]]; [lia| |exfalso].
  - cbn [firstn] in F. rewrite after_1, M1 in F. injection F as <-. auto.
  - cbn [firstn] in MB. destruct x as [|d x]; [cbn in LB; lia|]. change (c :: d :: firstn n x) with ([c] ++ d :: firstn n x) in MB. rewrite <- after_ok, after_1 in MB. apply matched_live in MB; [|discriminate].
    pose proof (proj1 (forallb_forall _ _) live_1 _ (byte_range NC)) as L1. unfold live_ok in L1. rewrite byte_bz, U in L1. destruct (bz c =? 33) eqn:E33; [|destruct (bz c =? 34) eqn:E34].
    + assert (c = "!"%char) as -> by (rewrite <- (byte_bz c); replace (bz c) with 33 by lia; reflexivity). rewrite live_bang in MB. destruct MB as (y & [I|[]] & M). injection I as <- <-.
      inversion M as [|n0 l0 c0 IC EQ| | | | |]; subst. specialize (BG eq_refl). cbn [starts] in BG. assert (bz d = 61) by (unfold in_class in IC; cbn [existsb fst snd] in IC; lia).
      assert (d = "="%char) by (rewrite <- (byte_bz d); replace (bz d) with 61 by lia; reflexivity). subst d. discriminate BG.
    + assert (c = DQUOTE) as -> by (rewrite <- (byte_bz c); replace (bz c) with 34 by lia; reflexivity). rewrite live_quote in MB. destruct MB as (y & [I|[]] & M). injection I as <- <-.
      apply matches_cat in M as (u & v & EW & MU & MV). apply matches_plus_cls in MU as [NU FU]. inversion MV as [|n0 l0 c0 IC EQ| | | | |]; subst.
      assert (IN : forall b, In b u -> bz b <> 34 /\ bz b <> 10). { intros b I. pose proof (proj1 (forallb_forall _ _) FU _ I) as K. unfold in_class in K. cbn [existsb fst snd] in K. lia. }
      apply (QU eq_refl u (skipn n x) NU).
      * intro I. destruct (IN _ I) as [K _]. apply K. reflexivity.
      * intro I. destruct (IN _ I) as [_ K]. apply K. reflexivity.
      * assert (c0 = DQUOTE) as -> by (rewrite <- (byte_bz c0); replace (bz c0) with 34 by (unfold in_class in IC; cbn [existsb fst snd] in IC; lia); reflexivity).
        change (DQUOTE :: skipn n x) with ([DQUOTE] ++ skipn n x). rewrite app_assoc, <- EW. cbn [app]. f_equal. symmetry. apply firstn_skipn.
    + destruct (live (steps c (active 1))); [destruct MB as (? & [] & _)|discriminate L1].
Qed.
Lemma stop_from st len rest : lx_start st = 1 -> ~ In NUL rest -> no_token rest -> exists c x, rest = c :: x /\
  lex_from st len rest = Some [mkTok 0 TVNone (user_action [c] (lx_pos st)) (slen (user_action [c] (lx_pos st)) - len)].
Proof.
  intros S1 N NT. assert (ST : is_start (lx_start st)) by (left; exact S1). rewrite (lex_from_eq len ST N).
  destruct (lex_step_total ST N) as [[-> E]|(r & n & B & L1 & R & E)]; [destruct NT as (? & ? & K & _); discriminate K|]. rewrite S1 in B. destruct (stop_best N NT B) as [-> ->]. rewrite E.
  destruct rest as [|c x]; [cbn in L1; lia|]. exists c, x. split; [reflexivity|]. cbn [firstn]. unfold run_rule. cbn. reflexivity.
Qed.
