(** Property C42: parses on different threads do not interfere.

    The model of a process with several threads.  The only mutable object of the library that is not reachable from the arguments of a call is the
    string buffer [strbuf] of the scanner, declared [static thread_local] in flex_lexer.l:21; everything else a parse works on (scanner object,
    buffer, parser stacks, result object) belongs to the calling thread (SQLParser.cpp:12-37, %option reentrant in flex_lexer.l:36,
    %define api.pure in bison_parser.y:67).  malloc/free are thread safe and their addresses carry no meaning (Heap.v numbers blocks per thread). *)
From Verif Require Import Base LexModel LexProof LexMatch LexTotal Ast Heap Actions ParseModel Api Driver ParseProof PropParse.
From Coq Require Import ZifyBool ZifyNat ZifyN.
Open Scope Z_scope.
Set Implicit Arguments.

(** ** Model *)
(** A running parse of one thread: the scanner state without the string buffer (yy_start and the location), the unread input, string_length when the
    current token began, the tokens read so far and the remainder of the machine.  SQLParser.cpp:12-37. *)
Record running := mkRun { g_start : Z; g_pos : lexpos; g_len : Z; g_rest : bytes; g_toks : list token }.
(** A thread: the strings it still has to parse, the parse under way, and the outcomes of the finished parses, oldest first. *)
Record thread := mkThread { th_jobs : list bytes; th_cur : option running; th_done : list parse_out }.
(** The process: the threads, and the memory that holds the string buffers.  [where_ t] is the buffer thread [t] works on. *)
Record process := mkProc { p_thr : nat -> thread; p_buf : nat -> bytes }.
Definition upd {A} (f : nat -> A) (k : nat) (v : A) : nat -> A := fun n => if Nat.eqb n k then v else f n.

(** One step of thread [t]: start the next parse (SQLParser.cpp:13-24: hsql_lex_init, hsql__scan_string), or one pass through the scanner's loop
    (flex_lexer.l:280-283 work on the buffer).  After the last token the parser's result is fixed: a parse is a function of the tokens
    and of the thread's own memory (ParseModel.v, bison_parser.cpp:2885).  Every parse starts with a new result object (simplification: each one also
    starts with an empty heap; block numbers are only names). *)
Definition finish (ts : list token) : parse_out :=
  match yyparse ts fresh_env with PRet r e => PRet r (set_valid (r =? 0) e) | o => o end.
Definition thread_step (th : thread) (b : bytes) : thread * bytes :=
  match th_cur th with
  | None =>
    match th_jobs th with
    | [] => (th, b)
    | sql :: js => (mkThread js (Some (mkRun 1 pos0 0 (c_string sql) [])) (th_done th), b)
    end
  | Some g =>
    match lex_step (mkLex (g_start g) b (g_pos g)) (g_rest g) with
    | StepStuck => (mkThread (th_jobs th) None (th_done th ++ [PUB UTable]), b)
    | StepSkip st rest => (mkThread (th_jobs th) (Some (mkRun (lx_start st) (lx_pos st) (g_len g) rest (g_toks g))) (th_done th), lx_buf st)
    | StepTok c v st rest =>
      let ts := g_toks g ++ [mkTok c v (lx_pos st) (slen (lx_pos st) - g_len g)] in
      if c <=? 0 then (mkThread (th_jobs th) None (th_done th ++ [finish ts]), lx_buf st)
      else (mkThread (th_jobs th) (Some (mkRun (lx_start st) (lx_pos st) (slen (lx_pos st)) rest ts)) (th_done th), lx_buf st)
    end
  end.
(** [where_ t]: the buffer of thread [t]. *)
Definition process_step (where_ : nat -> nat) (t : nat) (p : process) : process :=
  let (th, b) := thread_step (p_thr p t) (p_buf p (where_ t)) in mkProc (upd (p_thr p) t th) (upd (p_buf p) (where_ t) b).
(** A schedule: which thread makes the next step. *)
Definition run_schedule (where_ : nat -> nat) (sched : list nat) (p : process) : process := fold_left (fun p t => process_step where_ t p) sched p.
(** thread_local: every thread has a buffer of its own, flex_lexer.l:21. *)
Definition thread_local : nat -> nat := fun t => t.
(** At the beginning nothing has been parsed; the buffers may contain anything. *)
Definition initial (jobs : nat -> list bytes) (bufs : nat -> bytes) : process := mkProc (fun t => mkThread (jobs t) None []) bufs.

(** ** Invariant *)
Definition run_ok (sql : bytes) (g : running) (b : bytes) : Prop :=
  is_start (g_start g) /\ ~ In NUL (g_rest g) /\
  exists ts, lex_from (mkLex (g_start g) b (g_pos g)) (g_len g) (g_rest g) = Some ts /\ lex_all [] sql = Some (g_toks g ++ ts).
Definition alone (sql : bytes) : parse_out := parse [] sql fresh_env.
Definition thread_ok (jobs : list bytes) (th : thread) (b : bytes) : Prop :=
  exists finished, th_done th = map alone finished /\
  match th_cur th with
  | None => jobs = finished ++ th_jobs th
  | Some g => exists sql, jobs = finished ++ sql :: th_jobs th /\ run_ok sql g b
  end.
Lemma thread_step_ok jobs th b : thread_ok jobs th b -> thread_ok jobs (fst (thread_step th b)) (snd (thread_step th b)).
Proof.
  intros (fin & D & C). unfold thread_step. destruct (th_cur th) as [g|] eqn:EC.
  - destruct C as (sql & J & (S & N & ts & F & A)).
    assert (LS : is_start (lx_start (mkLex (g_start g) b (g_pos g)))) by exact S. rewrite (lex_from_eq (g_len g) LS N) in F.
    assert (STEP : exists o, lex_step (mkLex (g_start g) b (g_pos g)) (g_rest g) = o /\
      match o with StepStuck => False | StepSkip st rest => is_start (lx_start st) /\ ~ In NUL rest | StepTok c _ st rest => c <= 0 \/ is_start (lx_start st) /\ ~ In NUL rest end).
    { eexists. split; [reflexivity|]. destruct (lex_step_total LS N) as [[E0 ->]|(r & n & B & L1 & R & ->)]; [left; lia|].
      pose proof (run_rule_ok r (firstn n (g_rest g)) LS) as OK. destruct (run_rule r (firstn n (g_rest g)) _) as [st|c v st]; [|right]; (split; [apply OK|now apply skipn_NUL]). }
    destruct STEP as (o & E & P). rewrite E in *. destruct o as [st rest|c v st rest|]; [| |contradiction]; cbn [fst snd].
    + exists fin. split; [exact D|]. cbn [th_cur th_jobs]. exists sql. split; [exact J|]. destruct P as [P1 P2]. split; [exact P1|]. split; [exact P2|]. exists ts. cbn [g_start g_pos g_len g_rest g_toks]. destruct st. auto.
    + cbn zeta in *. destruct (c <=? 0) eqn:LE; cbn [fst snd].
      * injection F as <-. exists (fin ++ [sql]). split; [cbn [th_done]; rewrite D, map_app; f_equal; cbn [map]; f_equal; unfold alone, parse, finish; now rewrite A|]. cbn [th_cur th_jobs]. rewrite <- app_assoc. exact J.
      * destruct P as [P|[P1 P2]]; [lia|]. destruct (lex_from st (slen (lx_pos st)) rest) as [ts'|] eqn:F'; [|discriminate F]. cbn [obind] in F. injection F as <-.
        exists fin. split; [exact D|]. cbn [th_cur th_jobs]. exists sql. split; [exact J|]. split; [exact P1|]. split; [exact P2|]. exists ts'. cbn [g_start g_pos g_len g_rest g_toks]. split; [destruct st; exact F'|]. rewrite <- app_assoc. exact A.
  - destruct (th_jobs th) as [|sql js] eqn:EJ; cbn [fst snd].
    + exists fin. rewrite EC, EJ. auto.
    + exists fin. split; [exact D|]. cbn [th_cur th_jobs]. exists sql. split; [exact C|]. split; [now left|]. cbn [g_start g_pos g_len g_rest g_toks]. split; [apply c_string_NUL|].
      destruct (lex_all_total b sql) as (ts & E & _). exists ts. split; [exact E|]. rewrite <- (lex_all_buf b). exact E.
Qed.
Definition process_ok (where_ : nat -> nat) (jobs : nat -> list bytes) (p : process) : Prop := forall t, thread_ok (jobs t) (p_thr p t) (p_buf p (where_ t)).
Lemma process_step_ok where_ jobs t p : (forall a b, where_ a = where_ b -> a = b) -> process_ok where_ jobs p -> process_ok where_ jobs (process_step where_ t p).
Proof.
  intros INJ OK u. unfold process_step. pose proof (thread_step_ok (OK t)) as T. destruct (thread_step (p_thr p t) (p_buf p (where_ t))) as [th b]. cbn [fst snd] in T. cbn [p_thr p_buf]. unfold upd.
  destruct (Nat.eqb_spec u t) as [->|N]; [now rewrite Nat.eqb_refl|]. destruct (Nat.eqb_spec (where_ u) (where_ t)) as [E|_]; [apply INJ in E; contradiction|apply OK].
Qed.
Lemma schedule_ok jobs sched : forall p, process_ok thread_local jobs p -> process_ok thread_local jobs (run_schedule thread_local sched p).
Proof. induction sched as [|t s IH]; intros p OK; [exact OK|]. cbn [run_schedule fold_left]. apply IH. apply process_step_ok; [intros a b E; exact E|exact OK]. Qed.

(** ** C42 *)
(** Whatever the threads have to parse, whatever the buffers contain and however the scheduler interleaves the steps: the outcomes a thread has obtained
    so far are those it would have obtained alone, for its own inputs in order. *)
Theorem C42_threads : forall jobs bufs sched t, exists later,
  let th := p_thr (run_schedule thread_local sched (initial jobs bufs)) t in
  jobs t = firstn (List.length (th_done th)) (jobs t) ++ later /\
  th_done th = map (fun sql => parse [] sql fresh_env) (firstn (List.length (th_done th)) (jobs t)) /\
  (th_cur th = None -> th_jobs th = later).
Proof.
  intros jobs bufs sched t.
  assert (I0 : process_ok thread_local jobs (initial jobs bufs)) by (intro u; exists []; split; reflexivity).
  destruct (@schedule_ok jobs sched _ I0 t) as (fin & D & C).
  exists (skipn (List.length (th_done (p_thr (run_schedule thread_local sched (initial jobs bufs)) t))) (jobs t)). cbn zeta.
  set (th := p_thr (run_schedule thread_local sched (initial jobs bufs)) t) in *.
  assert (J : exists l, jobs t = fin ++ l /\ (th_cur th = None -> th_jobs th = l)) by (destruct (th_cur th); [destruct C as (sql & -> & _); eexists; split; [reflexivity|discriminate]|eexists; split; [exact C|reflexivity]]). destruct J as (l & J & JL).
  rewrite firstn_skipn. split; [reflexivity|]. rewrite D, map_length, J, firstn_app, firstn_all, Nat.sub_diag, firstn_O, app_nil_r, skipn_app, skipn_all, Nat.sub_diag. auto.
Qed.
(** Two schedules: what both have finished is the same. *)
Corollary C42_any_two_schedules : forall jobs bufs bufs' s s' t, let d := th_done (p_thr (run_schedule thread_local s (initial jobs bufs)) t) in
  let d' := th_done (p_thr (run_schedule thread_local s' (initial jobs bufs')) t) in
  List.length d = List.length d' -> d = d'.
Proof.
  intros. destruct (C42_threads jobs bufs s t) as (l & _ & E & _). destruct (C42_threads jobs bufs' s' t) as (l' & _ & E' & _). fold d in E. fold d' in E'. now rewrite E, E', H.
Qed.

(** Progress: a thread that gets enough steps finishes all its parses, whatever the other threads do in between. *)
Definition cost (sql : bytes) : nat := S (S (List.length (c_string sql))).
Definition todo (th : thread) : nat := match th_cur th with None => 0 | Some g => S (List.length (g_rest g)) end + list_sum (map cost (th_jobs th)).
Lemma thread_step_less jobs th b : thread_ok jobs th b -> (todo th = 0 /\ fst (thread_step th b) = th \/ S (todo (fst (thread_step th b))) <= todo th)%nat.
Proof.
  intros (fin & _ & C). unfold thread_step, todo. destruct (th_cur th) as [g|] eqn:EC.
  - right. destruct C as (sql & J & (S & N & ts & F & A)).
    assert (LS : is_start (lx_start (mkLex (g_start g) b (g_pos g)))) by exact S.
    destruct (lex_step_total LS N) as [[E0 ->]|(r & n & B & L1 & R & ->)]; [cbn [Z.leb fst th_cur th_jobs]; change (0 <=? 0)%Z with true; cbn [fst th_cur th_jobs]; lia|].
    destruct (run_rule r (firstn n (g_rest g)) _) as [st|c v st]; [|cbn zeta; destruct (c <=? 0)]; cbn [fst th_cur th_jobs g_rest]; rewrite ?skipn_length; lia.
  - destruct (th_jobs th) as [|sql js] eqn:EJ; cbn [fst th_cur th_jobs g_rest]; [left; auto|right]. cbn [map]; change (list_sum (cost sql :: map cost js)) with (cost sql + list_sum (map cost js))%nat; unfold cost at 2; lia.
Qed.
Lemma count_cons (t u : nat) l : count_occ Nat.eq_dec (u :: l) t = ((if Nat.eq_dec u t then 1 else 0) + count_occ Nat.eq_dec l t)%nat.
Proof. cbn. destruct (Nat.eq_dec u t); reflexivity. Qed.
Lemma schedule_less jobs t sched : forall p, process_ok thread_local jobs p ->
  (todo (p_thr (run_schedule thread_local sched p) t) + count_occ Nat.eq_dec sched t <= todo (p_thr p t) \/ todo (p_thr (run_schedule thread_local sched p) t) = 0)%nat.
Proof.
  induction sched as [|u s IH]; intros p OK; [left; cbn; lia|]. cbn [run_schedule fold_left]. change (fold_left _ s ?q) with (run_schedule thread_local s q). rewrite count_cons.
  assert (INJ : forall a b, thread_local a = thread_local b -> a = b) by (intros a b E; exact E).
  destruct (IH _ (process_step_ok u INJ OK)) as [H|H]; [|now right].
  assert (L : (todo (p_thr (process_step thread_local u p) t) + (if Nat.eq_dec u t then 1 else 0) <= todo (p_thr p t) \/ todo (p_thr (process_step thread_local u p) t) = 0)%nat).
  { unfold process_step. pose proof (thread_step_less (OK u)) as TL. destruct (thread_step (p_thr p u) (p_buf p (thread_local u))) as [th b]. cbn [fst p_thr] in *. unfold upd. rewrite Nat.eqb_sym.
    destruct (Nat.eq_dec u t) as [->|NE]; [rewrite Nat.eqb_refl; destruct TL as [[Z ->]|TL]; [right; exact Z|left; lia]|]. rewrite (proj2 (Nat.eqb_neq u t)) by exact NE. left. lia. }
  destruct L as [L|L]; [left; lia|right; lia].
Qed.
Theorem C42_progress : forall jobs bufs sched t, (list_sum (map cost (jobs t)) <= count_occ Nat.eq_dec sched t)%nat ->
  th_done (p_thr (run_schedule thread_local sched (initial jobs bufs)) t) = map (fun sql => parse [] sql fresh_env) (jobs t).
Proof.
  intros jobs bufs sched t C. destruct (C42_threads jobs bufs sched t) as (later & J & D & E). cbn zeta in *.
  assert (I0 : process_ok thread_local jobs (initial jobs bufs)) by (intro u; exists []; split; reflexivity).
  set (th := p_thr (run_schedule thread_local sched (initial jobs bufs)) t) in *.
  assert (Z : todo th = 0%nat). { destruct (@schedule_less jobs t sched _ I0) as [H|H]; fold th in H; [|exact H]. change (todo (p_thr (initial jobs bufs) t)) with (list_sum (map cost (jobs t))) in H. lia. }
  unfold todo in Z. destruct (th_cur th) eqn:EC; [lia|]. destruct (th_jobs th) as [|a l] eqn:EJ; [|cbn in Z; unfold cost in Z; lia]. rewrite D. f_equal. rewrite J at 2. rewrite <- (E eq_refl), app_nil_r. reflexivity.
Qed.

(** Two threads, interleaved step by step in the middle of their string literals. *)
Definition two_jobs (t : nat) : list bytes := match t with 0 => [la "SELECT 'it''s'"; la "SELECT 'a'"] | 1 => [la "SELECT 'x''y'"] | _ => [] end%nat.
Fixpoint alternate (n : nat) : list nat := match n with O => [] | S n => 0%nat :: 1%nat :: alternate n end.
Example C42_example : let p := run_schedule thread_local (alternate 40) (initial two_jobs (fun _ => la "old")) in
  List.length (th_done (p_thr p 0)) = 2%nat /\ List.length (th_done (p_thr p 1)) = 1%nat.
Proof. cbn zeta. split; vm_compute; reflexivity. Qed.
(** With one buffer for all threads (as the scanner had before thread_local was added) the same schedule mixes the literals up: the theorem depends on where the buffers are. *)
Example C42_needs_thread_local : let p := run_schedule (fun _ => 0%nat) (alternate 40) (initial two_jobs (fun _ => la "old")) in
  exists d, th_done (p_thr p 1) = [d] /\ d <> parse [] (la "SELECT 'x''y'") fresh_env.
Proof.
  cbn zeta. eexists. split; [vm_compute; reflexivity|]. vm_compute. discriminate.
Qed.
