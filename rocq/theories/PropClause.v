(** Properties C30, C31, C32, C37 and C40.  Vocabulary: see PropStmt.v. *)
From Verif Require Import Script PropStmt.
From Verif Require Import LexScan LexWords LexTok Part Expr Stmt Legal.
From Coq Require Import ZifyBool ZifyNat ZifyN Permutation.
Local Open Scope nat_scope.

(** ** C30 and C31: CREATE TABLE *)
Definition columns (l : list telem) : list cdef := flat_map (fun e => match e with EColumn d => [d] | EConstraint _ => [] end) l.
Definition table_constraints (l : list telem) : list tcon := flat_map (fun e => match e with EColumn _ => [] | EConstraint c => [c] end) l.
(** NOT NULL or PRIMARY KEY. *)
Definition strict (d : cdef) : Prop := In CcNotNull (d_cons d) \/ In CcPrimary (d_cons d).
Definition contradictory (d : cdef) : Prop := strict d /\ In CcNull (d_cons d).
Lemma strict_ok d : not_nullable (d_cons d) = true <-> strict d.
Proof.
  unfold not_nullable, strict. rewrite existsb_exists. split.
  - intros (c & I & E). destruct c; try discriminate E; auto.
  - intros [I|I]; eexists; (split; [exact I|reflexivity]).
Qed.
Lemma explicit_ok d : explicit_null (d_cons d) = true <-> In CcNull (d_cons d).
Proof. unfold explicit_null. rewrite existsb_exists. split; [intros (c & I & E); destruct c; try discriminate E; auto|]. intros I. eexists. split; [exact I|reflexivity]. Qed.
Lemma idents_ok l : forall k, all_ok (map pid l) k = true.
Proof. induction l as [|x l IH]; intro k; [reflexivity|]. cbn [map all_ok pid token_part q_ok andb]. apply IH. Qed.
Lemma telem_ok_spec l k : forallb (fun e => q_ok (p_telem e) k) l = true <-> forall d, In d (columns l) -> ~ contradictory d.
Proof.
  assert (CC : forall d, q_ok (p_cdef d) k = true <-> ~ contradictory d).
  { intro d. unfold p_cdef, contradictory. cbn [seqp q_ok all_ok pid ptype p_ccons token_part andb]. rewrite <- strict_ok, <- explicit_ok. destruct (not_nullable (d_cons d)), (explicit_null (d_cons d)); cbn; intuition discriminate. }
  assert (TC : forall c, q_ok (p_tcon c) k = true). { intros [c|c|c [[[?|] ?] [|r0 r]]]; unfold p_tcon, p_ref, ident_list, p_columns, paren; cbn [seqp seq_ q_ok all_ok kw token_part plist ident_list p_tname Stmt.t_schema Stmt.t_name r_table r_cols nothing andb pid]; rewrite ?idents_ok; cbn [andb]; try reflexivity;
      unfold ident_list, plist; cbn [q_ok]; rewrite idents_ok; reflexivity. }
  induction l as [|e l IH]; [cbn; intuition|]. cbn [forallb columns flat_map]. rewrite andb_true_iff. destruct e as [d|c]; cbn [p_telem app].
  - rewrite CC, IH. split; [intros [A B] d' [<-|I]; auto|]. intros H. split; [apply H; now left|]. intros d' I. apply H. now right.
  - rewrite TC, IH. intuition.
Qed.
Lemma values_columns l k : map (fun e => q_obj (p_telem e) k) (filter is_column l) = map (fun d => q_obj (p_cdef d) k) (columns l).
Proof. induction l as [|[d|c] l IH]; [reflexivity| |exact IH]. cbn [filter is_column map columns flat_map app p_telem]. f_equal. exact IH. Qed.
Lemma values_constraints l k : map (fun e => q_obj (p_telem e) k) (filter (fun e => negb (is_column e)) l) = map (fun c => q_obj (p_tcon c) k) (table_constraints l).
Proof. induction l as [|[d|c] l IH]; [reflexivity|exact IH|]. cbn [filter is_column negb map table_constraints flat_map app p_telem]. f_equal. exact IH. Qed.
(** All list elements of the text occur, in their order. *)
Lemma elements_split l : Permutation l (map EColumn (columns l) ++ map EConstraint (table_constraints l)).
Proof. induction l as [|[d|c] l IH]; [constructor| |]; cbn [columns table_constraints flat_map app map]; [now constructor|]. now apply Permutation_cons_app. Qed.
Definition elements_ok (l : list telem) : Prop := l <> [] /\ Forall (fun c => match c with TcPrimary cols | TcUnique cols | TcForeign cols _ => cols <> [] end) (table_constraints l).
Lemma create_legal ine t l : elements_ok l -> stmt_legal (SCreateTable ine t l).
Proof.
  intros [NE TC]. split; [|constructor]. cbn [stmt_ok]. apply andb_true_intro. split; [destruct l; [now elim NE|reflexivity]|]. apply forallb_forall. intros e I. destruct e as [d|c]; [reflexivity|]. cbn [telem_ok].
  rewrite Forall_forall in TC. assert (IC : In c (table_constraints l)) by (apply in_flat_map; exists (EConstraint c); split; [exact I|now left]). specialize (TC _ IC). destruct c; cbn [tcon_ok]; destruct cols; cbn; congruence.
Qed.
Theorem C30_nullability : forall ine t l b text, elements_ok l -> q_stack (p_stmt (SCreateTable ine t l)) <= 196 -> spells (q_tok (p_stmt (SCreateTable ine t l)) ++ semicolon b) text ->
  ((forall d, In d (columns l) -> ~ contradictory d) -> exists s cols, accepted_with text [s] 0 /\ fget F_columns s = vec cols /\
     Forall2 (fun d c => fget F_name c = str (d_name d) /\ ((fget F_nullable c = VBool false /\ strict d) \/ (fget F_nullable c = VBool true /\ ~ strict d))) (columns l) cols) /\
  ((exists d, In d (columns l) /\ contradictory d) -> rejects text).
Proof.
  intros ine t l b text EO ST SP. pose proof (create_legal ine t l EO) as LG. split.
  - intros NC. exists (finished (SCreateTable ine t l)), (map (fun d => q_obj (p_cdef d) 0) (columns l)). split; [|split].
    + apply (stmt_accepted _ b _ LG ST SP). cbn [p_stmt q_ok]. now apply telem_ok_spec.
    + change (vec (map (fun e => q_obj (p_telem e) 0) (filter is_column l)) = vec (map (fun d => q_obj (p_cdef d) 0) (columns l))). now rewrite values_columns.
    + clear; induction (columns l) as [|d ds IH]; [constructor|]. cbn [map]. apply Forall2_cons; [|exact IH]. split; [reflexivity|]. change (fget F_nullable (q_obj (p_cdef d) 0)) with (VBool (negb (not_nullable (d_cons d)))).
      destruct (not_nullable (d_cons d)) eqn:E; [left; split; [reflexivity|now apply strict_ok]|right; split; [reflexivity|]]. intro H. apply strict_ok in H. congruence.
  - intros (d & I & C). apply (stmt_rejected _ b _ LG ST SP). cbn [p_stmt q_ok]. destruct (forallb _ l) eqn:E; [|reflexivity]. exfalso. exact (proj1 (telem_ok_spec l 0) E d I C).
Qed.
Example C30_example : elements_ok [EColumn (mkCol (la "a") TInt [CcUnique; CcPrimary; CcNotNull; CcPrimary]); EConstraint (TcPrimary [la "a"]); EColumn (mkCol (la "b") TText [CcNull; CcUnique])] /\
  contradictory (mkCol (la "c") TInt [CcNull; CcUnique; CcPrimary]) /\ ~ contradictory (mkCol (la "b") TText [CcNull; CcUnique]).
Proof.
  split; [split; [discriminate|repeat constructor; discriminate]|]. split; [split; [right|]; cbn; auto|]. intros [[I|I] _]; cbn in I; intuition discriminate.
Qed.
(** The column and the table constraint of a definition. *)
Definition column_object (d : cdef) (v : val) : Prop := fget F_name v = str (d_name d) /\ fget F_type v = ctype_obj (d_type d).
Definition constraint_object (c : tcon) (v : val) : Prop :=
  match c with
  | TcPrimary cols => fget F_type v = PrimaryKey /\ fget F_columnNames v = vec (map str cols)
  | TcUnique cols => fget F_type v = Unique /\ fget F_columnNames v = vec (map str cols)
  | TcForeign cols r => fget F_type v = ForeignKey /\ fget F_columnNames v = vec (map str cols) /\ fget F_table (fget F_references v) = str (t_name (r_table r))
  end.
Lemma ident_obj l : forall k, q_obj (ident_list l) k = vec (map str l).
Proof. intro k. unfold ident_list, plist. cbn [q_obj]. f_equal. unfold values. revert k. induction l as [|s l IH]; intro k; [reflexivity|]. cbn [map numbered_list pid token_part q_obj q_params]. now rewrite Nat.add_0_r, IH. Qed.
Theorem C31_table_elements : forall ine t l b text, elements_ok l -> (forall d, In d (columns l) -> ~ contradictory d) -> q_stack (p_stmt (SCreateTable ine t l)) <= 196 ->
  spells (q_tok (p_stmt (SCreateTable ine t l)) ++ semicolon b) text ->
  exists s cols cons, accepted_with text [s] 0 /\ fget F_columns s = vec cols /\ fget F_tableConstraints s = vec cons /\ Forall2 column_object (columns l) cols /\ Forall2 constraint_object (table_constraints l) cons.
Proof.
  intros ine t l b text EO NC ST SP. pose proof (create_legal ine t l EO) as LG. exists (finished (SCreateTable ine t l)), (map (fun d => q_obj (p_cdef d) 0) (columns l)), (map (fun c => q_obj (p_tcon c) 0) (table_constraints l)).
  split; [apply (stmt_accepted _ b _ LG ST SP); cbn [p_stmt q_ok]; now apply telem_ok_spec|]. split; [|split; [|split]].
  - change (vec (map (fun e => q_obj (p_telem e) 0) (filter is_column l)) = vec (map (fun d => q_obj (p_cdef d) 0) (columns l))). now rewrite values_columns.
  - change (vec (map (fun e => q_obj (p_telem e) 0) (filter (fun e => negb (is_column e)) l)) = vec (map (fun c => q_obj (p_tcon c) 0) (table_constraints l))). now rewrite values_constraints.
  - clear; induction (columns l) as [|d ds IH]; [constructor|]. cbn [map]. apply Forall2_cons; [|exact IH]. split; reflexivity.
  - clear. induction (table_constraints l) as [|c cs IH]; [constructor|]. cbn [map]. apply Forall2_cons; [|exact IH]. destruct c as [cols|cols|cols r].
    + split; [reflexivity|]. rewrite <- (ident_obj cols 0). reflexivity.
    + split; [reflexivity|]. rewrite <- (ident_obj cols 0). reflexivity.
    + split; [reflexivity|]. split; [rewrite <- (ident_obj cols 0); reflexivity|]. reflexivity.
Qed.
Definition elems_ : list telem := [EConstraint (TcUnique [la "x"]); EColumn (mkCol (la "a") TInt []); EConstraint (TcForeign [la "y"] (mkRef (mkTN None (la "r")) [])); EColumn (mkCol (la "b") TText [CcNotNull])].
Example C31_example : elements_ok elems_ /\ (forall d, In d (columns elems_) -> ~ contradictory d) /\ columns elems_ = [mkCol (la "a") TInt []; mkCol (la "b") TText [CcNotNull]] /\
  q_stack (p_stmt (SCreateTable false (mkTN None (la "t")) elems_)) <= 196 /\ forallb printable (q_tok (p_stmt (SCreateTable false (mkTN None (la "t")) elems_))) = true.
Proof.
  split; [split; [discriminate|repeat constructor; discriminate]|]. split; [|split; [reflexivity|split; [vm_compute; lia|vm_compute; reflexivity]]].
  intros d [<-|[<-|[]]] [_ I]; cbn in I; intuition discriminate.
Qed.

(** ** C32: options of COPY, format of IMPORT *)
Definition is_format (o : copt) : bool := match o with OFormat _ => true | _ => false end.
Definition is_encoding (o : copt) : bool := match o with OEncoding _ => true | _ => false end.
Definition is_delimiter (o : copt) : bool := match o with OCsv w _ => casecmp w (la "DELIMITER") | _ => false end.
Definition is_quote (o : copt) : bool := match o with OCsv w _ => casecmp w (la "QUOTE") | _ => false end.
Definition is_null (o : copt) : bool := match o with OCsvNull _ => true | _ => false end.
Definition at_most_once (f : copt -> bool) (l : list copt) : Prop := List.length (filter f l) <= 1.
(** The words are known; everything at most once; CSV options only with format CSV or without format. *)
Record acceptable (l : list copt) : Prop := {
  ac_format : forall w, In (OFormat w) l -> file_type w <> None;
  ac_word : forall w s, In (OCsv w s) l -> is_delimiter (OCsv w s) = true \/ is_quote (OCsv w s) = true;
  ac_once : forall f, In f [is_format; is_encoding; is_delimiter; is_quote; is_null] -> at_most_once f l;
  ac_csv : forall o w, In o l -> is_delimiter o = true \/ is_quote o = true \/ is_null o = true -> In (OFormat w) l -> file_type w = Some kImportCSV }.
Lemma casecmp_words w : casecmp w (la "DELIMITER") = true -> casecmp w (la "QUOTE") = false.
Proof. unfold casecmp. intros H. apply bytes_eqb_eq in H. rewrite H. reflexivity. Qed.
Lemma once_filter {A} (f : copt -> bool) (g : copt -> list A) l : (forall o, List.length (g o) = if f o then 1 else 0) -> once (flat_map g l) = true <-> at_most_once f l.
Proof.
  intro H. unfold once, at_most_once. rewrite Nat.leb_le. assert (E : List.length (flat_map g l) = List.length (filter f l)); [|now rewrite E].
  induction l as [|o l IH]; [reflexivity|]. cbn [flat_map filter]. rewrite app_length, H, IH. now destruct (f o).
Qed.
Lemma known_spec l : forallb known_option l = true <-> (forall w, In (OFormat w) l -> file_type w <> None) /\ (forall w s, In (OCsv w s) l -> is_delimiter (OCsv w s) = true \/ is_quote (OCsv w s) = true).
Proof.
  rewrite forallb_forall. split.
  - intros H. split; [intros w I|intros w s I]; specialize (H _ I); cbn [known_option is_delimiter is_quote] in *; [now destruct (file_type w)|now apply orb_prop in H].
  - intros [F W] [w|s|w s|s] I; cbn [known_option]; try reflexivity; [specialize (F _ I); now destruct (file_type w)|]. specialize (W _ _ I). cbn [is_delimiter is_quote] in W. apply orb_true_iff. exact W.
Qed.
Lemma formats_once l : (forall w, In (OFormat w) l -> file_type w <> None) -> once (formats l) = true <-> at_most_once is_format l.
Proof.
  intro F. unfold once, at_most_once. rewrite Nat.leb_le. assert (E : List.length (formats l) = List.length (filter is_format l)); [|now rewrite E].
  induction l as [|o l IH]; [reflexivity|]. unfold formats in *. cbn [flat_map filter]. rewrite app_length, IH; [|intros w I; apply F; now right]. destruct o as [w|s|w s|s]; cbn [is_format]; try reflexivity.
  specialize (F w (or_introl eq_refl)). now destruct (file_type w).
Qed.
Lemma delimiters_once l : once (delimiters l) = true <-> at_most_once is_delimiter l.
Proof. apply once_filter. intros [w|s|w s|s]; cbn [is_delimiter]; try reflexivity. now destruct (casecmp w (la "DELIMITER")). Qed.
Lemma quotes_once l : once (quotes l) = true <-> at_most_once is_quote l.
Proof. apply once_filter. intros [w|s|w s|s]; cbn [is_quote]; try reflexivity. destruct (casecmp w (la "DELIMITER")) eqn:E; [now rewrite (casecmp_words _ E)|]. now destruct (casecmp w (la "QUOTE")). Qed.
Lemma nulls_once l : once (nulls_ l) = true <-> at_most_once is_null l.
Proof. apply once_filter. now intros [w|s|w s|s]. Qed.
Lemma encodings_once l : once (encodings l) = true <-> at_most_once is_encoding l.
Proof. apply once_filter. now intros [w|s|w s|s]. Qed.
Lemma in_delimiters o l : In o l -> is_delimiter o = true -> delimiters l <> [].
Proof. intros I E D. destruct o as [w|s|w s|s]; cbn [is_delimiter] in E; try discriminate E. assert (J : In s (delimiters l)); [|now rewrite D in J]. apply in_flat_map. exists (OCsv w s). split; [exact I|]. rewrite E. now left. Qed.
Lemma in_quotes o l : In o l -> is_quote o = true -> quotes l <> [].
Proof.
  intros I E D. destruct o as [w|s|w s|s]; cbn [is_quote] in E; try discriminate E. assert (J : In s (quotes l)); [|now rewrite D in J]. apply in_flat_map. exists (OCsv w s). split; [exact I|].
  destruct (casecmp w (la "DELIMITER")) eqn:G; [rewrite (casecmp_words _ G) in E; discriminate E|]. rewrite E. now left.
Qed.
Lemma in_nulls o l : In o l -> is_null o = true -> nulls_ l <> [].
Proof. intros I E D. destruct o as [w|s|w s|s]; cbn [is_null] in E; try discriminate E. assert (J : In s (nulls_ l)); [|now rewrite D in J]. apply in_flat_map. exists (OCsvNull s). split; [exact I|]. now left. Qed.
Lemma csv_option l : delimiters l ++ quotes l ++ nulls_ l <> [] -> exists o, In o l /\ (is_delimiter o = true \/ is_quote o = true \/ is_null o = true).
Proof.
  intro NE. destruct (delimiters l ++ quotes l ++ nulls_ l) as [|s r] eqn:E; [now elim NE|]. assert (I : In s (delimiters l ++ quotes l ++ nulls_ l)) by (rewrite E; now left). apply in_app_or in I as [I|I]; [|apply in_app_or in I as [I|I]].
  - apply in_flat_map in I as (o & I & J). destruct o as [w|x|w x|x]; try (now destruct J). exists (OCsv w x). split; [exact I|]. left. cbn [is_delimiter]. now destruct (casecmp w (la "DELIMITER")).
  - apply in_flat_map in I as (o & I & J). destruct o as [w|x|w x|x]; try (now destruct J). exists (OCsv w x). split; [exact I|]. right. left. cbn [is_quote]. destruct (casecmp w (la "DELIMITER")); [destruct J|]. now destruct (casecmp w (la "QUOTE")).
  - apply in_flat_map in I as (o & I & J). destruct o as [w|x|w x|x]; try (now destruct J). exists (OCsvNull x). split; [exact I|]. right. right. reflexivity.
Qed.
Lemma enum_is_eq a b : is_enum kImportCSV b = true -> b = kImportCSV -> a = b -> a = kImportCSV. Proof. congruence. Qed.
Lemma acceptable_ok l : copts_ok l = true <-> acceptable l.
Proof.
  unfold copts_ok. rewrite !andb_true_iff, known_spec, encodings_once, delimiters_once, quotes_once, nulls_once. split.
  - intros [[[[[[[F W] O1] O2] O3] O4] O5] C]. rewrite (formats_once l F) in O1. constructor; [exact F|exact W| |].
    + intros f I. cbn [In] in I. intuition (subst; assumption).
    + intros o w I K J. assert (FW : forallb (is_enum kImportCSV) (formats l) = true).
      { destruct (delimiters l ++ quotes l ++ nulls_ l) eqn:E; [|exact C]. exfalso. apply app_eq_nil in E as [E1 E]. apply app_eq_nil in E as [E2 E3].
        destruct K as [K|[K|K]]; [exact (in_delimiters _ _ I K E1)|exact (in_quotes _ _ I K E2)|exact (in_nulls _ _ I K E3)]. }
      rewrite forallb_forall in FW. specialize (F _ J). destruct (file_type w) as [t|] eqn:E; [|now elim F]. assert (IT : In t (formats l)). { apply in_flat_map. exists (OFormat w). split; [exact J|]. rewrite E. now left. }
      specialize (FW _ IT). unfold file_type in E. destruct (casecmp w (la "csv")); [now injection E as <-|]. exfalso. destruct (casecmp w (la "tbl")); [injection E as <-; discriminate FW|]. destruct (casecmp w (la "binary") || casecmp w (la "bin")); [injection E as <-; discriminate FW|discriminate E].
  - intros [F W O C]. split; [split; [split; [split; [split; [split; [split; [exact F|exact W]|]|]|]|]|]|].
    + rewrite (formats_once l F). apply O. cbn; auto.
    + apply O. cbn; auto. + apply O. cbn; auto. + apply O. cbn; auto. + apply O. cbn; auto 6.
    + destruct (delimiters l ++ quotes l ++ nulls_ l) as [|s0 r0] eqn:E; [reflexivity|]. destruct (csv_option l) as (o & I & K); [rewrite E; discriminate|]. apply forallb_forall. intros t IT.
      apply in_flat_map in IT as (o' & I' & J). destruct o' as [w|x|w x|x]; try (now destruct J). rewrite (C o w I K I') in J. destruct J as [<-|[]]. reflexivity.
Qed.
(** Which order the options are written in does not matter. *)
Lemma flat_map_perm {A B} (f : A -> list B) l l' : Permutation l l' -> Permutation (flat_map f l) (flat_map f l').
Proof. apply Permutation_flat_map. Qed.
Lemma once_perm {A} (l l' : list A) : Permutation l l' -> once l = true -> l' = l.
Proof. intros P O. unfold once in O. apply Nat.leb_le in O. destruct l as [|x [|y l]]; cbn in O; [now apply Permutation_nil|now apply Permutation_length_1_inv|lia]. Qed.
Lemma acceptable_perm l l' : Permutation l l' -> acceptable l -> acceptable l'.
Proof.
  intros P [F W O C]. assert (S : forall x, In x l' -> In x l) by (intros x; apply Permutation_in; now symmetry). constructor; eauto.
  intros f I. specialize (O f I). unfold at_most_once in *. assert (E : List.length (filter f l') = List.length (filter f l)); [|lia]. apply Permutation_length. symmetry. clear -P. induction P; cbn [filter]; [constructor| | |etransitivity; eassumption].
  - destruct (f x); [now constructor|assumption]. - destruct (f x), (f y); try reflexivity. constructor.
Qed.
Lemma options_perm l l' : Permutation l l' -> copts_ok l = true -> copts_obj l' = copts_obj l.
Proof.
  intros P O. unfold copts_ok in O. rewrite !andb_true_iff in O. destruct O as [[[[[[_ O1] O2] O3] O4] O5] _]. unfold copts_obj, csv_obj.
  rewrite (once_perm (formats l) (formats l') (flat_map_perm _ _ _ P) O1), (once_perm (encodings l) (encodings l') (flat_map_perm _ _ _ P) O2), (once_perm (delimiters l) (delimiters l') (flat_map_perm _ _ _ P) O3),
    (once_perm (quotes l) (quotes l') (flat_map_perm _ _ _ P) O4), (once_perm (nulls_ l) (nulls_ l') (flat_map_perm _ _ _ P) O5). reflexivity.
Qed.
(** COPY statements and their options. *)
Inductive copies : list copt -> stmt -> Prop :=
| cp_from : forall o t file wk w, copies o (SCopyFrom t file wk o w)
| cp_to : forall o t file wk, copies o (SCopyTo t file wk o)
| cp_query : forall o q file wk, q_ok (p_pquery q) 0 = true -> copies o (SCopyQueryTo q file wk o).
(** The value [v] is that of the option [f], null if there is none. *)
Definition option_value (f : copt -> bool) (l : list copt) (v : val) : Prop :=
  (forall o, In o l -> f o = true -> match o with OEncoding s | OCsv _ s | OCsvNull s => v = str s | OFormat w => file_type w = Some v end) /\ ((forall o, In o l -> f o = false) -> v = VNull).
Definition format_value (l : list copt) (v : val) : Prop := (forall w, In (OFormat w) l -> file_type w = Some v) /\ ((forall o, In o l -> is_format o = false) -> v = kImportAuto).
Definition csv_value (l : list copt) (v : val) : Prop :=
  ((exists o, In o l /\ (is_delimiter o = true \/ is_quote o = true \/ is_null o = true)) -> option_value is_delimiter l (fget F_delimiter v) /\ option_value is_quote l (fget F_quote v) /\ option_value is_null l (fget F_null v)) /\
  ((forall o, In o l -> is_delimiter o = false /\ is_quote o = false /\ is_null o = false) -> v = VNull).
Lemma first_value (f : copt -> bool) (g : copt -> list bytes) l : (forall o, if f o then match o with OEncoding s | OCsv _ s | OCsvNull s => g o = [s] | OFormat _ => False end else g o = []) -> once (flat_map g l) = true -> option_value f l (first_str (flat_map g l)).
Proof.
  intros G O. split.
  - intros o I F. pose proof (G o) as Go. rewrite F in Go. unfold once in O. apply Nat.leb_le in O. assert (J : incl (g o) (flat_map g l)) by (intros x X; apply in_flat_map; eauto).
    destruct (flat_map g l) as [|x [|y r]]; cbn in O; [| |lia].
    + destruct o as [w|s|w s|s]; [destruct Go| | |]; rewrite Go in J; elim (J s (or_introl eq_refl)).
    + destruct o as [w|s|w s|s]; [destruct Go| | |]; rewrite Go in J; specialize (J s (or_introl eq_refl)); destruct J as [->|[]]; reflexivity.
  - intros N. assert (E : flat_map g l = []); [|now rewrite E]. clear O. induction l as [|o l IH]; [reflexivity|]. cbn [flat_map]. specialize (G o). rewrite (N o (or_introl eq_refl)) in G. rewrite G. apply IH. intros o' I. apply N. now right.
Qed.
Lemma format_first l : acceptable l -> once (formats l) = true -> format_value l (hd kImportAuto (formats l)).
Proof.
  intros A O. split.
  - intros w I. pose proof (ac_format _ A w I) as F. destruct (file_type w) as [t|] eqn:E; [|now elim F]. assert (J : In t (formats l)). { apply in_flat_map. exists (OFormat w). split; [exact I|]. rewrite E. now left. }
    unfold once in O. apply Nat.leb_le in O. destruct (formats l) as [|x [|y r]]; cbn in O; [destruct J| |lia]. destruct J as [->|[]]. reflexivity.
  - intros N. assert (E : formats l = []); [|now rewrite E]. clear -N. unfold formats. induction l as [|o l IH]; [reflexivity|]. cbn [flat_map]. rewrite IH; [|intros o' I; apply N; now right]. specialize (N o (or_introl eq_refl)). now destruct o.
Qed.
Lemma options_ok b o k : q_ok (p_options b o) k = copts_ok o.
Proof. destruct o as [|x o]; [reflexivity|]. destruct b; cbn [p_options seq_ seqp q_ok all_ok kw token_part p_copts andb q_params]; now rewrite !andb_true_r. Qed.
Lemma where_ok w k : q_ok (p_where w) k = true. Proof. now destruct w. Qed.
Lemma tname_ok t k : q_ok (p_tname t) k = true. Proof. now destruct t as [[?|] ?]. Qed.
Lemma copies_ok o s : copies o s -> q_ok (p_stmt s) 0 = copts_ok o.
Proof.
  intros H. destruct H as [o t file wk w|o t file wk|o q file wk E]; cbn [p_stmt seq_ seqp q_ok all_ok kw token_part andb q_params pstring]; rewrite options_ok; rewrite ?where_ok, ?tname_ok, ?E; cbn [andb]; rewrite ?andb_true_r; try reflexivity. change (0 + 0) with 0. now rewrite E.
Qed.
Theorem C32_copy_options : forall o s b text, copies o s -> stmt_legal s -> q_stack (p_stmt s) <= 196 -> spells (q_tok (p_stmt s) ++ semicolon b) text ->
  (acceptable o -> exists v, accepted_with text [v] (q_params (p_stmt s)) /\ format_value o (fget F_type v) /\ option_value is_encoding o (fget F_encoding v) /\ csv_value o (fget F_csv_options v)) /\
  (~ acceptable o -> rejects text).
Proof.
  intros o s b text CP LG ST SP. pose proof (copies_ok o s CP) as OK. split.
  - intros A. assert (B : copts_ok o = true) by now apply acceptable_ok. exists (finished s). split; [apply (stmt_accepted _ b _ LG ST SP); now rewrite OK|].
    assert (C := B). unfold copts_ok in C. rewrite !andb_true_iff in C. destruct C as [[[[[[_ O1] O2] O3] O4] O5] _].
    assert (V : fget F_type (finished s) = hd kImportAuto (formats o) /\ fget F_encoding (finished s) = first_str (encodings o) /\ fget F_csv_options (finished s) = csv_obj o) by (destruct CP; repeat split; reflexivity).
    destruct V as (-> & -> & ->). split; [now apply format_first|]. split; [apply first_value; [|exact O2]; now intros [w|x|w x|x]|]. unfold csv_obj. split.
    + intros (c & I & K). assert (NE : delimiters o ++ quotes o ++ nulls_ o <> []).
      { intro E. apply app_eq_nil in E as [E1 E]. apply app_eq_nil in E as [E2 E3]. destruct K as [K|[K|K]]; [exact (in_delimiters _ _ I K E1)|exact (in_quotes _ _ I K E2)|exact (in_nulls _ _ I K E3)]. }
      assert (DV : option_value is_delimiter o (first_str (delimiters o))). { apply first_value; [|exact O3]. intros [w|x|w x|x]; cbn [is_delimiter]; try reflexivity. now destruct (casecmp w (la "DELIMITER")). }
      assert (QV : option_value is_quote o (first_str (quotes o))). { apply first_value; [|exact O4]. intros [w|x|w x|x]; cbn [is_quote]; try reflexivity. destruct (casecmp w (la "DELIMITER")) eqn:G; [now rewrite (casecmp_words _ G)|]. now destruct (casecmp w (la "QUOTE")). }
      assert (NV : option_value is_null o (first_str (nulls_ o))). { apply first_value; [|exact O5]. now intros [w|x|w x|x]. }
      destruct (delimiters o ++ quotes o ++ nulls_ o); [now elim NE|]. split; [exact DV|]. split; [exact QV|exact NV].
    + intros N. destruct (delimiters o ++ quotes o ++ nulls_ o) as [|x r] eqn:E; [reflexivity|]. destruct (csv_option o) as (c & I & K); [rewrite E; discriminate|]. exfalso. destruct (N c I) as (N1 & N2 & N3). destruct K as [K|[K|K]]; congruence.
  - intros NA. apply (stmt_rejected _ b _ LG ST SP). rewrite OK. destruct (copts_ok o) eqn:E; [|reflexivity]. elim NA. now apply acceptable_ok.
Qed.
(** The order of the options changes neither the verdict nor the values. *)
Theorem C32_order : forall o o', Permutation o o' -> (acceptable o <-> acceptable o') /\ (acceptable o -> copts_obj o' = copts_obj o).
Proof. intros o o' P. split; [split; apply acceptable_perm; [|symmetry]; exact P|]. intro A. apply options_perm; [exact P|now apply acceptable_ok]. Qed.
Theorem C32_copy_order : forall o o' t file wk w b b' text text' s s', Permutation o o' -> In (s, s') [(SCopyFrom t file wk o w, SCopyFrom t file wk o' w); (SCopyTo t file wk o, SCopyTo t file wk o')] -> stmt_legal s ->
  q_stack (p_stmt s) <= 196 -> spells (q_tok (p_stmt s) ++ semicolon b) text -> q_stack (p_stmt s') <= 196 -> spells (q_tok (p_stmt s') ++ semicolon b') text' ->
  (exists v n, accepted_with text [v] n /\ accepted_with text' [v] n) \/ (rejects text /\ rejects text').
Proof.
  intros o o' t file wk w b b' text text' s s' P I LG ST SP ST' SP'. assert (CP : copies o s /\ copies o' s' /\ stmt_legal s' /\ q_params (p_stmt s') = q_params (p_stmt s) /\ (copts_obj o' = copts_obj o -> finished s' = finished s)).
  { cbn [In] in I. destruct I as [E|[E|[]]]; injection E as <- <-; (split; [constructor|split; [constructor|]]); (split; [exact LG|]).
    - split. { destruct o as [|? ?]; destruct o' as [|? ?]; destruct wk; cbn; unfold total; cbn; reflexivity. } unfold copts_obj, options. intro E. injection E as E1 E2 E3. unfold finished. cbn [hintable p_stmt seq_ seqp q_obj]. rewrite E1, E2, E3.
      do 2 f_equal. destruct o, o'; destruct wk; reflexivity.
    - split. { destruct o as [|? ?]; destruct o' as [|? ?]; destruct wk; cbn; unfold total; cbn; reflexivity. } unfold copts_obj, options. intro E. injection E as E1 E2 E3. unfold finished. cbn [hintable p_stmt seq_ seqp q_obj]. rewrite E1, E2, E3. reflexivity. }
  destruct CP as (C1 & C2 & LG' & NP & FE). destruct (C32_order o o' P) as [EQ VE]. pose proof (copies_ok _ _ C1) as K1. pose proof (copies_ok _ _ C2) as K2. destruct (copts_ok o) eqn:A.
  - left. exists (finished s), (q_params (p_stmt s)). assert (AC : acceptable o) by now apply acceptable_ok. split; [now apply (stmt_accepted _ b _ LG ST SP)|]. rewrite <- (FE (VE AC)), <- NP. apply (stmt_accepted _ b' _ LG' ST' SP'). rewrite K2. apply acceptable_ok. now apply EQ.
  - right. split; [now apply (stmt_rejected _ b _ LG ST SP)|]. apply (stmt_rejected _ b' _ LG' ST' SP'). rewrite K2. destruct (copts_ok o') eqn:B; [|reflexivity]. apply acceptable_ok in B. apply EQ in B. apply acceptable_ok in B. congruence.
Qed.
Example C32_example : acceptable [OCsvNull (la ""); OFormat (la "CSV"); OCsv (la "Quote") (la "'"); OEncoding (la "utf8")] /\ ~ acceptable [OCsvNull (la ""); OFormat (la "tbl")] /\ ~ acceptable [OEncoding (la "a"); OFormat (la "bin"); OEncoding (la "a")] /\ ~ acceptable [OCsv (la "foo") (la "x")].
Proof. rewrite <- !acceptable_ok. repeat split; try (vm_compute; discriminate). Qed.
(** IMPORT FROM format FILE path INTO table. *)
Theorem C32_import : forall ty file t b text, spells (q_tok (p_stmt (SImport ty file t)) ++ semicolon b) text ->
  (forall f, file_type ty = Some f -> exists v, accepted_with text [v] 0 /\ fget F_type v = f /\ fget F_filePath v = str file /\ fget F_tableName v = str (Stmt.t_name t)) /\ (file_type ty = None -> rejects text).
Proof.
  intros ty file t b text SP. assert (LG : stmt_legal (SImport ty file t)) by (split; [reflexivity|constructor]). assert (ST : q_stack (p_stmt (SImport ty file t)) <= 196) by (destruct t as [[?|] ?]; vm_compute; lia).
  assert (OK : q_ok (p_stmt (SImport ty file t)) 0 = match file_type ty with Some _ => true | None => false end) by (destruct t as [[?|] ?]; cbn; now destruct (file_type ty)).
  assert (NP : q_params (p_stmt (SImport ty file t)) = 0) by now destruct t as [[?|] ?]. split.
  - intros f E. exists (finished (SImport ty file t)). split; [rewrite <- NP; apply (stmt_accepted _ b _ LG ST SP); now rewrite OK, E|]. split; [|now split]. cbn. now rewrite E.
  - intro E. apply (stmt_rejected _ b _ LG ST SP). now rewrite OK, E.
Qed.

(** ** C40: no parameters in VALUES, EXECUTE and hints *)
Definition literal_of (l : clit) : xlit := match l with CPlain x | CCast x _ => x end.
(** A question mark; a DATE or INTERVAL whose string is not one. *)
Definition is_parameter (l : clit) : Prop := literal_of l = XLit VLParam.
Definition bad_string (l : clit) : Prop :=
  (exists s, literal_of l = XLit (VLDate s) /\ scan_date s = false) \/ (exists s u, (literal_of l = XLit (VLIntervalText s u) \/ literal_of l = XNegIntervalText s u) /\ interval_text s u = None).
Lemma clit_ok l k : q_ok (p_clit l) k = false <-> is_parameter l \/ bad_string l.
Proof.
  assert (E : q_ok (p_clit l) k = q_ok (p_xlit (literal_of l)) (match l with CPlain _ => k | CCast _ _ => k + 0 + 0 end)) by (destruct l; cbn [p_clit seq_ seqp q_ok all_ok kw token_part ptype andb literal_of q_params]; rewrite ?andb_true_r; reflexivity).
  rewrite E. unfold is_parameter, bad_string. destruct (literal_of l) as [[z|f|s|bb| |s|z u p|s u|]|z|f|z u p|s u]; cbn [p_xlit p_lit q_ok seq_ seqp all_ok kw token_part pex andb fits]; rewrite ?andb_true_r;
    try (split; [discriminate|intros [H|[(s' & H & _)|(s' & u' & [H|H] & _)]]; discriminate H]).
  - split; [intro H; right; left; eauto|]. intros [H|[(s' & H & D)|(s' & u' & [H|H] & _)]]; try discriminate H. now injection H as <-.
  - split; [intro H; right; right; exists s, u; split; [now left|]; now destruct (interval_text s u)|]. intros [H|[(s' & H & D)|(s' & u' & [H|H] & D)]]; try discriminate H. injection H as <- <-. now rewrite D.
  - intuition.
  - split; [intro H; right; right; exists s, u; split; [now right|]; now destruct (interval_text s u)|]. intros [H|[(s' & H & D)|(s' & u' & [H|H] & D)]]; try discriminate H. injection H as <- <-. now rewrite D.
Qed.
Lemma clits_ok l : forall k, all_ok (map p_clit l) k = false <-> exists x, In x l /\ (is_parameter x \/ bad_string x).
Proof.
  induction l as [|x l IH]; intro k; [split; [discriminate|intros (x & [] & _)]|]. cbn [map all_ok]. rewrite andb_false_iff, clit_ok, IH. split.
  - intros [H|(y & I & H)]; [exists x; split; [now left|exact H]|exists y; split; [now right|exact H]].
  - intros (y & [->|I] & H); [now left|right; eauto].
Qed.
(** Statements with a literal list. *)
Inductive literal_list : list clit -> stmt * list hint -> Prop :=
| ll_values : forall l t cols, literal_list l (SInsert t cols l, [])
| ll_execute : forall l n, literal_list l (SExecute n (Some l), [])
| ll_hint : forall l s h, hintable s = true -> q_ok (p_stmt s) 0 = true -> literal_list l (s, [mkHint h l]).
Lemma columns_ok_ cols k : q_ok (p_columns cols) k = true.
Proof. destruct cols as [|c cols]; [reflexivity|]. cbn [p_columns paren seq_ seqp q_ok all_ok kw token_part andb]. unfold ident_list, plist. cbn [q_ok]. now rewrite idents_ok. Qed.
Lemma list_ok l s : literal_list l s -> l <> [] -> q_ok (p_script [s]) 0 = false <-> exists x, In x l /\ (is_parameter x \/ bad_string x).
Proof.
  intros H NE. cbn [p_script map q_ok all_ok]. rewrite andb_true_r. destruct H as [l t cols|l n|l s h HT OK]; unfold p_hinted; cbn [fst snd hintable].
  - cbn [p_stmt p_hints seq_ seqp q_ok all_ok kw token_part nothing andb plist]. rewrite tname_ok, columns_ok_. cbn [andb]. rewrite ?andb_true_r. apply clits_ok.
  - cbn [p_stmt p_hints seq_ seqp q_ok all_ok kw token_part nothing andb pid]. rewrite ?andb_true_r. destruct l as [|x l]; [now elim NE|]. cbn [plist q_ok]. apply clits_ok.
  - rewrite HT. cbn [seq_ seqp q_ok all_ok]. rewrite OK. cbn [p_hints seq_ seqp q_ok all_ok kw token_part plist map andb p_hint h_args]. rewrite ?andb_true_r. destruct l as [|x l]; [now elim NE|].
    unfold p_hint. cbn [h_args seq_ seqp q_ok all_ok kw token_part plist pid h_name andb]. rewrite ?andb_true_r. apply clits_ok.
Qed.
Theorem C40_no_parameters : forall l s b text, literal_list l s -> l <> [] -> script_legal [s] -> q_stack (p_script [s]) <= 198 -> spells (q_tok (p_script [s]) ++ semicolon b) text ->
  ((exists x, In x l /\ is_parameter x) -> rejects text) /\
  ((forall x, In x l -> ~ is_parameter x /\ ~ bad_string x) -> accepted_with text (script_objs [s]) (q_params (p_script [s]))).
Proof.
  intros l s b text LL NE LG ST SP. pose proof (list_ok l s LL NE) as OK. split.
  - intros (x & I & P). apply (script_rejected LG ST SP). apply OK. eauto.
  - intros N. apply (script_accepted LG ST SP). destruct (q_ok (p_script [s]) 0) eqn:E; [reflexivity|]. destruct (proj1 OK eq_refl) as (x & I & [P|P]); destruct (N x I) as [N1 N2]; contradiction.
Qed.
Definition values_ : list clit := [CPlain (XNegInt 5); CCast (XLit (VLString (la "x"))) TText; CPlain (XNegInterval 3 Day false); CPlain (XLit VLNull)].
Example C40_example : literal_list values_ (SInsert (mkTN None (la "t")) [] values_, []) /\ script_legal [(SInsert (mkTN None (la "t")) [] values_, [])] /\ (forall x, In x values_ -> ~ is_parameter x /\ ~ bad_string x) /\
  is_parameter (CCast (XLit VLParam) TInt) /\ forallb printable (q_tok (p_script [(SInsert (mkTN None (la "t")) [] (values_ ++ [CPlain (XLit VLParam)]), [])])) = true.
Proof.
  split; [constructor|]. split; [split; [discriminate|constructor; [split; [reflexivity|constructor]|constructor]]|]. split; [|split; [reflexivity|vm_compute; reflexivity]].
  intros x I. cbn [values_ In] in I. repeat (destruct I as [<-|I]; [split; [discriminate|intros [(s & E & _)|(s & u & [E|E] & _)]; discriminate E]|]). destruct I.
Qed.
(** Where a literal list is expected, no token but these may start an element: anything else is not derivable, see C03 and C04. *)

(** ** C37: ORDER BY, LIMIT, WITH and locking clauses *)
(** The objects of ORDER BY, LIMIT and FOR ... after [n] parameters. *)
Definition order_is (o : list ord) (n : nat) (v : val) : Prop := match o with [] => v = VNull | _ => v = vec (values (map p_ord o) n) end.
Definition limit_is (l : lim) (n : nat) (v : val) : Prop :=
  match l with
  | LNone => v = VNull
  | LLimit e => fget F_limit v = xobj e n /\ fget F_offset v = VNull
  | LOffset e => fget F_limit v = VNull /\ fget F_offset v = xobj e n
  | LBoth e f => fget F_limit v = xobj e n /\ fget F_offset v = xobj f (n + xparams e)
  | LAll => fget F_limit v = VNull /\ fget F_offset v = VNull /\ v <> VNull
  | LAllOffset f => fget F_limit v = VNull /\ fget F_offset v = xobj f n
  end.
Definition top_is (t : option Z) (v : val) : Prop := match t with None => v = VNull | Some z => fget F_limit v = int_lit z /\ fget F_offset v = VNull end.
Definition lockings_are (l : list lock) (v : val) : Prop := match l with [] => v = VNull | _ => Forall2 (fun k x => fget F_rowLockMode x = q_obj (p_mode (k_mode k)) 0 /\ fget F_rowLockWaitPolicy x = q_obj (p_policy (k_policy k)) 0 /\ fget F_tables x = match k_tables k with [] => VNull | ts => vec (map str ts) end) l (elems v) end.
Definition op_is (s : setop) (all : bool) (v : val) : Prop := fget F_setType v = match s with Union => kSetUnion | Intersect => kSetIntersect | Except => kSetExcept end /\ fget F_isAll v = VBool all.
(** [attached q n v]: the clauses of the query [q] are in the places of the object [v] where they belong. *)
Fixpoint attached (q : query) (n : nat) (v : val) : Prop :=
  match q with
  | QSelect c o l k =>
    let n := n + q_params (p_clause c) in
    fget F_setOperations v = VNull /\ order_is o n (fget F_order v) /\ lockings_are k (fget F_lockings v) /\
    match l with LNone => top_is (c_top c) (fget F_limit v) | _ => limit_is l (n + q_params (p_order o)) (fget F_limit v) end
  | QSet c s all r o l k =>
    let n' := n + q_params (p_clause c) in let n'' := n' + q_params (p_operand r) in
    exists op, fget F_setOperations v = vec [op] /\ op_is s all op /\ attached_operand r n' (fget F_nestedSelectStatement op) /\
      order_is o n'' (fget F_resultOrder op) /\ limit_is l (n'' + q_params (p_order o)) (fget F_resultLimit op) /\ fget F_order v = VNull /\ top_is (c_top c) (fget F_limit v) /\ lockings_are k (fget F_lockings v)
  end
with attached_paren (p : pquery) (n : nat) (v : val) : Prop := match p with PQuery q => attached q n v | PParen p => attached_paren p n v end
with attached_operand (r : operand_) (n : nat) (v : val) : Prop :=
  match r with
  | OParen p => attached_paren p n v
  | OSelect c => fget F_setOperations v = VNull /\ fget F_order v = VNull /\ top_is (c_top c) (fget F_limit v) /\ fget F_lockings v = VNull
  | OSet c s all r =>
    exists op, fget F_setOperations v = vec [op] /\ op_is s all op /\ attached_operand r (n + q_params (p_clause c)) (fget F_nestedSelectStatement op) /\
      fget F_resultOrder op = VNull /\ fget F_resultLimit op = VNull /\ fget F_order v = VNull /\ top_is (c_top c) (fget F_limit v) /\ fget F_lockings v = VNull
  end.
Scheme query_mut := Induction for query Sort Prop with pquery_mut := Induction for pquery Sort Prop with operand_mut := Induction for operand_ Sort Prop.
Combined Scheme query_all from query_mut, pquery_mut, operand_mut.
Lemma order_obj o n : order_is o n (q_obj (p_order o) n).
Proof. destruct o as [|x o]; [reflexivity|]. unfold order_is, p_order. cbn [seq_ seqp q_obj values numbered_list kw token_part q_params arg nth Nat.pred plist]. now rewrite !Nat.add_0_r. Qed.
Lemma limit_obj l n : limit_is l n (q_obj (p_limit l) n).
Proof. destruct l; cbn; rewrite ?Nat.add_0_r; repeat split; discriminate. Qed.
Lemma top_obj t n : top_is t (q_obj (p_top t) n). Proof. destruct t; cbn; auto. Qed.
Lemma lock_obj l n : lockings_are l (q_obj (p_locks l) n).
Proof.
  unfold lockings_are. destruct l as [|x l]; [reflexivity|]. cbn [p_locks prow q_obj vec elems]. set (m := x :: l). clearbody m. clear x l. unfold values. revert n. induction m as [|x l IH]; intro n; [constructor|]. cbn [map numbered_list]. constructor; [|apply IH].
  unfold p_lock. destruct (k_tables x) as [|t ts] eqn:E.
  - cbn [seq_ seqp q_obj]. cbn [values numbered_list kw token_part q_obj q_params arg nth Nat.pred obj fget]. destruct (k_mode x), (k_policy x); repeat split.
  - pose proof (ident_obj (t :: ts)) as IO. cbn [seq_ seqp q_obj]. cbn [values numbered_list kw token_part q_obj q_params arg nth Nat.pred obj fget]. split; [now destruct (k_mode x)|]. split; [now destruct (k_policy x)|]. match goal with |- ?l = _ => match l with context [q_obj (ident_list (t :: ts)) ?m] => change l with (q_obj (ident_list (t :: ts)) m) end end. now rewrite IO.
Qed.
Lemma attached_all : (forall q n, attached q n (q_obj (p_query q) n)) /\ (forall p n, attached_paren p n (q_obj (p_pquery p) n)) /\ (forall r n, attached_operand r n (q_obj (p_operand r) n)).
Proof.
  assert (SP : forall s all, q_params (p_setop s all) = 0) by (intros s []; reflexivity).
  apply query_all.
  - intros c o l k n. cbn [attached]. split; [reflexivity|]. split; [exact (order_obj o _)|]. split; [exact (lock_obj k _)|]. destruct l; try exact (limit_obj _ _). exact (top_obj (c_top c) _).
  - intros c s all r IH o l k n. cbn [attached]. cbn [p_query seq_ seqp q_obj values numbered_list]. rewrite SP, !Nat.add_0_r. eexists. split; [reflexivity|]. split; [destruct all; split; reflexivity|]. split; [exact (IH _)|]. split; [exact (order_obj o _)|]. split; [exact (limit_obj l _)|]. split; [reflexivity|]. split; [exact (top_obj (c_top c) _)|exact (lock_obj k _)].
  - intros q IH n. cbn [attached_paren p_pquery paren seq_ seqp q_obj values numbered_list kw token_part arg nth Nat.pred q_params]. rewrite Nat.add_0_r. apply IH.
  - intros p IH n. cbn [attached_paren p_pquery paren seq_ seqp q_obj values numbered_list kw token_part arg nth Nat.pred q_params]. rewrite Nat.add_0_r. apply IH.
  - intros p IH n. apply IH.
  - intros c n. cbn [attached_operand p_operand]. split; [reflexivity|]. split; [reflexivity|]. split; [exact (top_obj (c_top c) _)|reflexivity].
  - intros c s all r IH n. cbn [attached_operand]. cbn [p_operand seq_ seqp q_obj values numbered_list]. rewrite SP, !Nat.add_0_r. eexists. split; [reflexivity|]. split; [destruct all; split; reflexivity|]. split; [exact (IH _)|]. split; [reflexivity|]. split; [reflexivity|]. split; [reflexivity|]. split; [exact (top_obj (c_top c) _)|reflexivity].
Qed.
(** The queries of a statement, and where their objects are. *)
Fixpoint withs_are (w : withs) (n : nat) (l : list val) : Prop :=
  match w, l with
  | [], [] => True
  | d :: w', x :: l' => fget F_alias x = str (fst d) /\ attached_paren (snd d) n (fget F_select x) /\ withs_are w' (n + q_params (p_pquery (snd d))) l'
  | _, _ => False
  end.
Definition withs_attached (w : withs) (v : val) : Prop := match w with [] => v = VNull | _ => exists l, v = vec l /\ withs_are w 0 l end.
Definition select_attached (w : withs) (s : select) (v : val) : Prop :=
  let n := q_params (p_withs w) in
  withs_attached w (fget F_withDescriptions v) /\
  match s with
  | SQuery q => attached q n v
  | SParen p => attached_paren p n v
  | SSet p s all r o l => (* the set operation comes after those inside the parentheses, whose clauses stay there *)
    exists v0 op, attached_paren p n v0 /\ fget F_setOperations v = vec (elems (fget F_setOperations v0) ++ [op]) /\ fget F_order v = fget F_order v0 /\ fget F_limit v = fget F_limit v0 /\ fget F_lockings v = fget F_lockings v0 /\
      op_is s all op /\ attached_operand r (n + q_params (p_pquery p)) (fget F_nestedSelectStatement op) /\ order_is o (n + q_params (p_pquery p) + q_params (p_operand r)) (fget F_resultOrder op) /\
      limit_is l (n + q_params (p_pquery p) + q_params (p_operand r) + q_params (p_order o)) (fget F_resultLimit op)
  end.
(** Objects of queries have all members of a select statement. *)
Definition select_object (v : val) : Prop := exists fs, v = VObj 0 CSelectStatement fs /\ map fst fs = map fst (Sem.blank CSelectStatement).
Lemma query_object : (forall q n, select_object (q_obj (p_query q) n)) /\ (forall p n, select_object (q_obj (p_pquery p) n)).
Proof.
  assert (Q : forall q n, select_object (q_obj (p_query q) n)) by (intros [c o l k|c s all r o l k] n; eexists; split; reflexivity). split; [exact Q|].
  induction p as [q|p IH]; intro n; cbn [p_pquery paren seq_ seqp q_obj values numbered_list kw token_part arg nth Nat.pred q_params]; [apply Q|apply IH].
Qed.
Lemma keys_update f x fs : map fst (update f x fs) = map fst fs.
Proof. induction fs as [|[g v] fs IH]; [reflexivity|]. cbn [update]. destruct (fld_beq f g); cbn [map fst]; [reflexivity|]. now rewrite IH. Qed.
Lemma select_with f x v : select_object v -> select_object (with_ [(f, x)] v).
Proof. intros (fs & -> & K). exists (update f x fs). split; [reflexivity|]. now rewrite keys_update. Qed.
Lemma keys_lookup f fs : existsb (fld_beq f) (map fst fs) = true -> lookup f fs <> None.
Proof. induction fs as [|[g v] fs IH]; [discriminate|]. cbn [map fst existsb lookup]. now destruct (fld_beq f g). Qed.
Lemma with_get f g x v : select_object v -> existsb (fld_beq f) (map fst (Sem.blank CSelectStatement)) = true -> fget g (with_ [(f, x)] v) = if fld_beq f g then x else fget g v.
Proof.
  intros (fs & -> & K) I. rewrite <- K in I. apply keys_lookup in I. cbn [with_ upds fget]. rewrite (Poke.lookup_update f g x fs). destruct (fld_beq f g); [|reflexivity]. now destruct (lookup f fs).
Qed.
Definition alike (v w : val) : Prop := fget F_setOperations w = fget F_setOperations v /\ fget F_order w = fget F_order v /\ fget F_lockings w = fget F_lockings v /\ fget F_limit w = fget F_limit v.
Lemma attached_alike q n v w : alike v w -> attached q n v -> attached q n w.
Proof. intros (A & B & C & D). destruct q; cbn [attached]; rewrite A, B, C, D; exact (fun H => H). Qed.
Lemma attached_paren_alike p n v w : alike v w -> attached_paren p n v -> attached_paren p n w.
Proof. intros A. induction p as [q|p IH]; cbn [attached_paren]; [now apply attached_alike|exact IH]. Qed.
Lemma with_alike f x v : select_object v -> existsb (fld_beq f) (map fst (Sem.blank CSelectStatement)) = true -> existsb (fld_beq f) [F_setOperations; F_order; F_lockings; F_limit] = false -> alike v (with_ [(f, x)] v).
Proof.
  intros O I N. cbn [existsb] in N. rewrite !orb_false_iff in N. destruct N as (N1 & N2 & N3 & N4 & _). unfold alike. rewrite !(with_get f _ x v O I). now rewrite N1, N2, N3, N4.
Qed.
Lemma alike_trans u v w : alike u v -> alike v w -> alike u w.
Proof. intros (A & B & C & D) (A' & B' & C' & D'). repeat split; etransitivity; eassumption. Qed.
Lemma withs_obj w : withs_attached w (q_obj (p_withs w) 0).
Proof.
  assert (H : forall l n, withs_are l n (values (map (fun d => seq_ (fun v => obj CWithDescription [(F_alias, arg 1 v); (F_select, arg 3 v)]) [pid (fst d); kw TOK_AS; p_pquery (snd d)]) l) n)).
  { unfold values. induction l as [|d l IH]; intro n; [exact I|]. cbn [map numbered_list withs_are]. split; [reflexivity|]. split.
    - cbn [seq_ seqp q_obj]. pose proof (proj1 (proj2 attached_all) (snd d) n) as A. rewrite <- (Nat.add_0_r n) in A at 2. rewrite <- (Nat.add_0_r (n + 0)) in A. exact A.
    - cbn [seq_ seqp q_params total map list_sum pid kw token_part]. unfold total. cbn [map pid kw token_part q_params list_sum fold_right]. cbn [Nat.add]. rewrite Nat.add_0_r. apply IH. }
  unfold withs_attached. destruct w as [|d w]; [reflexivity|]. eexists. split; [reflexivity|]. apply H.
Qed.
Theorem C37_attachment : forall w s b text, stmt_legal (SSelect w s) -> q_stack (p_select w s) <= 196 -> spells (q_tok (p_select w s) ++ semicolon b) text -> q_ok (p_select w s) 0 = true ->
  exists v, accepted_with text [v] (q_params (p_select w s)) /\ select_attached w s v.
Proof.
  intros w s b text LG ST SP OK. exists (finished (SSelect w s)). split; [exact (stmt_accepted _ b _ LG ST SP OK)|]. unfold finished. cbn [hintable p_stmt].
  assert (FIN : forall v0, select_object v0 -> fget F_withDescriptions v0 = fget F_withDescriptions (with_ [(F_stringLength, VInt 0)] (with_ [(F_hints, VNull)] v0)) /\ alike v0 (with_ [(F_stringLength, VInt 0)] (with_ [(F_hints, VNull)] v0))).
  { intros v0 O. pose proof (select_with F_hints VNull _ O) as O'. split; [now rewrite (with_get F_stringLength), (with_get F_hints)|]. eapply alike_trans; [apply (with_alike F_hints VNull _ O); reflexivity|]. apply with_alike; [exact O'|reflexivity|reflexivity]. }
  destruct query_object as [QO PO]. destruct attached_all as (AQ & AP & AO). unfold select_attached. destruct s as [q|p|p s all r o l]; cbn [p_select].
  - cbn [seq_ seqp q_obj values numbered_list arg nth Nat.pred]. set (n := 0 + q_params (p_withs w)). set (v0 := q_obj (p_query q) n). pose proof (QO q n : select_object v0) as O. pose proof (select_with F_withDescriptions (q_obj (p_withs w) 0) _ O) as O1. destruct (FIN _ O1) as [W A].
    split; [rewrite <- W, (with_get F_withDescriptions) by (assumption || reflexivity); exact (withs_obj w)|]. eapply attached_alike; [exact A|]. eapply attached_alike; [apply with_alike; [exact O|reflexivity|reflexivity]|]. exact (AQ q n).
  - cbn [seq_ seqp q_obj values numbered_list arg nth Nat.pred]. set (n := 0 + q_params (p_withs w)). set (v0 := q_obj (p_pquery p) n). pose proof (PO p n : select_object v0) as O. pose proof (select_with F_withDescriptions (q_obj (p_withs w) 0) _ O) as O1. destruct (FIN _ O1) as [W A].
    split; [rewrite <- W, (with_get F_withDescriptions) by (assumption || reflexivity); exact (withs_obj w)|]. eapply attached_paren_alike; [exact A|]. eapply attached_paren_alike; [apply with_alike; [exact O|reflexivity|reflexivity]|]. exact (AP p n).
  - assert (SP0 : q_params (p_setop s all) = 0) by now destruct all. cbn [seq_ seqp q_obj values numbered_list arg nth Nat.pred]. rewrite SP0, Nat.add_0_r. set (n := 0 + q_params (p_withs w)). set (v0 := q_obj (p_pquery p) n). pose proof (PO p n : select_object v0) as O.
    unfold set_op. match goal with |- context [with_ [(F_setOperations, ?x)] v0] => set (ops := x) end. pose proof (select_with F_setOperations ops _ O) as O1. pose proof (select_with F_withDescriptions (q_obj (p_withs w) 0) _ O1) as O2. destruct (FIN _ O2) as [W A].
    split; [rewrite <- W, (with_get F_withDescriptions) by (assumption || reflexivity); exact (withs_obj w)|]. exists v0. eexists. split; [exact (AP p n)|]. destruct A as (A1 & A2 & A3 & A4). rewrite A1, A2, A3, A4.
    rewrite !(with_get F_withDescriptions) by (assumption || reflexivity). cbn [fld_beq]. rewrite !(with_get F_setOperations) by (assumption || reflexivity). cbn [fld_beq].
    split; [reflexivity|]. split; [reflexivity|]. split; [reflexivity|]. split; [reflexivity|]. split; [destruct all; split; reflexivity|]. split; [exact (AO r _)|]. split; [exact (order_obj o _)|exact (limit_obj l _)].
Qed.
Example C37_example : stmt_legal (SSelect [] (SSet (PQuery (QSelect (PropStmt.plain [item_ XStar] [from_ "t"] None) [mkOrd (c_ "a") None None] (LLimit (XInt 1)) [])) Union true (OSelect (mkClause (Some 3%Z) false [item_ XStar] [from_ "u"] None [] None)) [mkOrd (c_ "b") None None] (LLimit XParam))) /\
  forallb printable (q_tok (p_select [] (SQuery main_))) = true /\ stmt_legal (SSelect [] (SQuery (QSelect (mkClause (Some 3%Z) false [item_ XStar] [from_ "u"] None [] None) [] (LLimit (XInt 5)) [mkLock LUpdate [la "t"] PNowait]))).
Proof. split; [split; [reflexivity|constructor]|]. split; [vm_compute; reflexivity|split; [reflexivity|constructor]]. Qed.
