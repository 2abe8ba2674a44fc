(** Every well-formed script is said by the grammar symbol statement_list; no code of /repo. *)
From Verif Require Export StmtProof.
From Coq Require Import ZifyBool ZifyNat ZifyN.
Local Open Scope nat_scope.
Set Implicit Arguments.
Unset Strict Implicit.

(** ** Literals *)
Lemma type_says t : says S_column_type (ptype t).
Proof. apply said_says with (L := 12); [|vm_compute; lia]. intros k. split; [reflexivity|]. cbn. rewrite Nat.add_0_r. apply ctype_ok. Qed.
Definition p_literal (l : lit) : part := let e := lit_ex l in mkPart (xtok e) (xobj e) (fun _ => match l with VLDate s => scan_date s | VLIntervalText s u => fits (XIntervalText s u) | _ => true end) (xparams e) (xstack e).
Ltac ofr r ps := eapply (@says_rule r _ _ ps); [reflexivity|parts_|vm_compute; reflexivity|try reflexivity|try (intros; reflexivity)|try reflexivity|try (cbn; lia)].
Lemma num_says z : says S_num_literal (p_literal (VLInt z)).
Proof. su 291%N. ofr 292%N [pnum z]. Qed.
Lemma flt_says f : says S_num_literal (p_literal (VLFloat f)).
Proof. ofr 290%N [pfloat f]. Qed.
Lemma interval_says z u p : says S_interval_literal (p_literal (VLInterval z u p)).
Proof. apply said_says with (L := 12); [|vm_compute; lia]. intros k. split; [reflexivity|]. cbn. rewrite Nat.add_0_r. apply interval_ok. Qed.
Lemma interval_text_says s u : says S_interval_literal (p_literal (VLIntervalText s u)).
Proof.
  destruct u as [u|].
  - assert (U : says S_datetime_field (mkPart [unit_tok u] (fun _ => unit_obj u) (fun _ => true) 0 1)) by (apply said_says with (L := 12); [|vm_compute; lia]; intros k; split; [reflexivity|]; cbn; rewrite Nat.add_0_r; apply unit_ok).
    eapply (@says_rule 296%N _ _ [kw TOK_INTERVAL; pstring s; mkPart [unit_tok u] (fun _ => unit_obj u) (fun _ => true) 0 1]); [reflexivity|parts_|vm_compute; reflexivity|reflexivity| |reflexivity|cbn; lia].
    intros k. cbn [p_literal lit_ex q_ok q_obj fits xobj interval_text all_ok kw pstring token_part andb]. cbn [asem nth Nat.pred text tok_val str values numbered_list q_obj kw pstring token_part]. destruct (scan_interval1 s); reflexivity.
  - eapply (@says_rule 297%N _ _ [kw TOK_INTERVAL; pstring s]); [reflexivity|parts_|vm_compute; reflexivity|reflexivity| |reflexivity|cbn; lia].
    intros k. cbn [p_literal lit_ex q_ok q_obj fits xobj interval_text all_ok kw pstring token_part andb]. cbn [asem nth Nat.pred text tok_val str values numbered_list q_obj kw pstring token_part]. destruct (scan_interval2 s) as [|d w|]; try reflexivity. destruct (unit_of w); reflexivity.
Qed.
Lemma literal_says l : says S_literal (p_literal l).
Proof.
  destruct l.
  - su 282%N. apply num_says.
  - su 282%N. apply flt_says.
  - su 280%N. ofr 287%N [pstring s].
  - su 281%N. destruct b; [ofr 288%N [kw TOK_TRUE]|ofr 289%N [kw TOK_FALSE]].
  - su 283%N. ofr 293%N [kw TOK_NULL].
  - su 284%N. ofr 294%N [kw TOK_DATE; pstring s].
  - su 285%N. apply interval_says.
  - su 285%N. apply interval_text_says.
  - su 286%N. apply said_says with (L := 12); [|vm_compute; lia]. intros k. split; [reflexivity|]. cbn. rewrite Nat.add_1_r. apply said_param.
Qed.
Lemma lit_says l : says S_extended_literal (p_lit l).
Proof.
  pose proof (literal_says l) as H. pose proof (says_pos H) as POS. eapply (@says_rule 179%N _ _ [p_literal l]); [reflexivity|parts_|vm_compute; reflexivity|apply app_nil_r| | |].
  - intros k. destruct l as [| |?|[]| |s|z u p|s u|]; try reflexivity; cbn [all_ok p_literal q_ok p_lit lit_ex]; [destruct (scan_date s); reflexivity|]. cbn [fits values numbered_list q_obj p_literal lit_ex xobj]. destruct (interval_text s u) as [[n f]|] eqn:IT; [|reflexivity]. cbn [andb q_obj p_lit lit_ex xobj]. rewrite IT. reflexivity.
  - cbn. lia.
  - cbn. cbn in POS. lia.
Qed.
Lemma xlit_says l : says S_extended_literal (p_xlit l).
Proof.
  destruct l; cbn [p_xlit].
  - apply lit_says.
  - pose proof (num_says z). ofr 180%N [kw 45; p_literal (VLInt z)].
  - pose proof (flt_says f). ofr 180%N [kw 45; p_literal (VLFloat f)].
  - pose proof (interval_says z u plural). ofr 181%N [kw 45; p_literal (VLInterval z u plural)].
  - pose proof (interval_text_says s u). assert (says S_interval_literal (p_lit (VLIntervalText s u))) by assumption. sr 181%N.
Qed.
Lemma clit_says l : says S_casted_extended_literal (p_clit l).
Proof. destruct l as [l|l t]; cbn [p_clit]; [su 177%N; apply xlit_says|]. pose proof (xlit_says l). pose proof (type_says t). sr 178%N. Qed.
Lemma clits_says l : l <> [] -> says S_extended_literal_list (plist (map p_clit l)).
Proof. intros N. pl 175%N 176%N; [now apply map_ne|]. apply Forall_map_all, clit_says. Qed.

(** ** Columns *)
Lemma pids l k : values (map pid l) k = map str l.
Proof. unfold values. induction l as [|x l IH]; cbn [map numbered_list pid token_part q_obj q_params]; [reflexivity|]. rewrite Nat.add_0_r. f_equal. exact IH. Qed.
Lemma ref_obj r k : q_obj (p_ref r) k = obj CReferencesSpecification [(F_schema, schema_of (r_table r)); (F_table, name_of (r_table r)); (F_columns, match r_cols r with [] => VNull | l => vec (map str l) end)].
Proof. unfold p_ref. cbn [seq_ seqp q_obj]. destruct r as [t [|c l]]; cbn [r_table r_cols p_columns]; [reflexivity|]. unfold arg, values. cbn [numbered_list Nat.pred nth paren seq_ seqp q_obj values ident_list plist]. fold (values (map pid (c :: l))). rewrite <- pids with (k := k + q_params (kw TOK_REFERENCES) + q_params (p_tname t) + q_params (kw 40)). reflexivity. Qed.
Lemma ref_params r : q_params (p_ref r) = 0.
Proof. unfold p_ref. cbn [seq_ seqp q_params]. rewrite !total_cons. destruct r as [[[s|] n] [|c l]]; cbn [r_table r_cols p_columns]; try reflexivity; cbn; rewrite map_map; cbn; induction l; cbn; auto. Qed.
Lemma ref_says r : says S_references_spec (p_ref r).
Proof. pose proof (tname_says (r_table r)). pose proof (columns_says (r_cols r)). unfold p_ref. sr 103%N. intros k _. destruct r as [[[s|] n] l]; reflexivity. Qed.
Lemma pids_ok l k : all_ok (map pid l) k = true.
Proof. revert k. induction l as [|x l IH]; intros k; cbn [map all_ok]; [reflexivity|]. rewrite IH. reflexivity. Qed.
Lemma columns_always l k : q_ok (p_columns l) k = true.
Proof. destruct l as [|c l]; [reflexivity|]. cbn [p_columns paren seq_ seqp q_ok all_ok kw token_part ident_list plist]. rewrite pids_ok. reflexivity. Qed.
Lemma ref_always r k : q_ok (p_ref r) k = true.
Proof. unfold p_ref. cbn [seq_ seqp q_ok all_ok]. rewrite columns_always. destruct r as [[[s|] n] l]; reflexivity. Qed.
Lemma kinds_snoc l c : vec (kinds (l ++ [c])) = add_enum (vec (kinds l)) (cc_kind c).
Proof. unfold kinds. rewrite fold_left_app. cbn [fold_left]. unfold add_enum, mem_enum. cbn [elems vec]. destruct (existsb _ _); reflexivity. Qed.
Lemma refs_snoc l c : refs (l ++ [c]) = refs l ++ refs [c].
Proof. unfold refs. apply flat_map_app. Qed.
Lemma ccons_say l : l <> [] -> says S_column_constraints (p_ccons l).
Proof.
  induction l as [|c l IH] using rev_ind; [now intros []|]. intros _. destruct l as [|c0 l].
  - destruct c; unfold p_ccons; cbn [app].
    + assert (says S_column_constraint (p_ccon CcPrimary)) by (cbn [p_ccon]; sr 96%N). ofr 92%N [p_ccon CcPrimary].
    + assert (says S_column_constraint (p_ccon CcUnique)) by (cbn [p_ccon]; sr 97%N). ofr 92%N [p_ccon CcUnique].
    + assert (says S_column_constraint (p_ccon CcNull)) by (cbn [p_ccon]; sr 98%N). ofr 92%N [p_ccon CcNull].
    + assert (says S_column_constraint (p_ccon CcNotNull)) by (cbn [p_ccon]; sr 99%N). ofr 92%N [p_ccon CcNotNull].
    + pose proof (ref_says r) as R. pose proof (says_pos R). eapply (@says_rule 94%N _ _ [p_ref r]); [reflexivity|parts_|vm_compute; reflexivity|reflexivity| | |].
      * intros k. cbn [all_ok q_ok]. rewrite ref_always. cbn [andb]. unfold refs. cbn [flat_map app values numbered_list]. rewrite !ref_obj. reflexivity.
      * rewrite total_cons, ref_params. reflexivity.
      * cbn [map p_ccon q_stack stack stack_from row_stack fold_right]. lia.
  - assert (NE : c0 :: l <> []) by discriminate. specialize (IH NE). remember (c0 :: l) as cs eqn:EC. clear EC c0 l. pose proof (row_stack_pos (map (fun c => q_stack (p_ccon c)) cs)) as RP.
    assert (TK : q_tok (p_ccons cs) ++ q_tok (p_ccon c) ++ [] = q_tok (p_ccons (cs ++ [c]))) by (cbn [p_ccons q_tok]; rewrite flat_map_app; reflexivity).
    assert (SK : 1 <= q_stack (p_ccon c) -> stack (map q_stack [p_ccons cs; p_ccon c]) <= q_stack (p_ccons (cs ++ [c]))) by (intros POS; cbn [map p_ccons q_stack]; rewrite map_app; cbn [map]; rewrite row_stack_snoc; cbn [stack stack_from]; lia).
    assert (GEN : forall r, says S_column_constraint (p_ccon c) -> (forall k, q_ok (p_ccon c) k = true) -> (forall k, q_obj (p_ccon c) k = cc_kind c) -> refs [c] = [] -> q_params (p_ccon c) = 0 -> r = 93%N -> says S_column_constraints (p_ccons (cs ++ [c]))).
    { intros r S1 O1 Q1 R1 Z1 ->. eapply (@says_rule 93%N _ _ [p_ccons cs; p_ccon c]); [reflexivity|parts_|vm_compute; reflexivity|exact TK| |cbn; rewrite Z1; reflexivity|apply SK, (says_pos S1)].
      intros k. cbn [all_ok p_ccons q_ok q_params]. rewrite O1. cbn [andb]. cbn [values numbered_list p_ccons q_obj]. rewrite Q1, refs_snoc, R1, app_nil_r, kinds_snoc. reflexivity. }
    destruct c.
    + apply (GEN 93%N); try reflexivity. cbn [p_ccon]; sr 96%N.
    + apply (GEN 93%N); try reflexivity. cbn [p_ccon]; sr 97%N.
    + apply (GEN 93%N); try reflexivity. cbn [p_ccon]; sr 98%N.
    + apply (GEN 93%N); try reflexivity. cbn [p_ccon]; sr 99%N.
    + clear GEN. pose proof (ref_says r) as R. eapply (@says_rule 95%N _ _ [p_ccons cs; p_ref r]); [reflexivity|parts_|vm_compute; reflexivity|exact TK| | |apply SK; exact (says_pos R)].
      * intros k. cbn [all_ok p_ccons q_ok q_params]. rewrite ref_always. cbn [andb]. cbn [values numbered_list p_ccons q_obj]. rewrite refs_snoc, kinds_snoc. change (refs [CcRef r]) with [q_obj (p_ref r) 0]. rewrite !ref_obj. reflexivity.
      * rewrite !total_cons, ref_params. reflexivity.
Qed.
Lemma opt_ccons_say l : says S_opt_column_constraints (p_ccons l).
Proof. destruct l as [|c l]; [ofr 91%N (@nil part)|]. su 90%N. apply ccons_say. discriminate. Qed.
Lemma enum_trans x y z : is_enum x y = true -> is_enum y z = true -> is_enum x z = true.
Proof.
  unfold is_enum, enum_is. destruct x; try discriminate; destruct y; try discriminate; destruct z; try discriminate. intros A B. bools.
  repeat match goal with H : enumt_beq _ _ = true |- _ => apply enumt_beq_eq in H | H : N.eqb _ _ = true |- _ => apply N.eqb_eq in H end. subst. now rewrite enumt_beq_refl, N.eqb_refl.
Qed.
Lemma kinds_mem x l : mem_enum x (kinds l) = existsb (fun c => is_enum x (cc_kind c)) l.
Proof.
  unfold kinds, mem_enum. 
  assert (G : forall acc, existsb (is_enum x) (fold_left (fun acc c => if existsb (is_enum (cc_kind c)) acc then acc else acc ++ [cc_kind c]) l acc) = existsb (is_enum x) acc || existsb (fun c => is_enum x (cc_kind c)) l); [|exact (G [])].
  induction l as [|c l IH]; intros acc; cbn [fold_left existsb].
  - now rewrite orb_false_r.
  - rewrite IH. destruct (existsb (is_enum (cc_kind c)) acc) eqn:E.
    + destruct (is_enum x (cc_kind c)) eqn:X; [|reflexivity]. apply existsb_exists in E as (y & I & Y). replace (existsb (is_enum x) acc) with true; [reflexivity|]. symmetry. apply existsb_exists. exists y. split; [exact I|]. eapply enum_trans; eassumption.
    + rewrite existsb_app. cbn [existsb]. rewrite orb_false_r, orb_assoc. reflexivity.
Qed.
Lemma strict_mem l : mem_enum NotNull (kinds l) || mem_enum PrimaryKey (kinds l) = not_nullable l.
Proof. rewrite !kinds_mem. unfold not_nullable. induction l as [|c l IH]; [reflexivity|]. cbn [existsb]. rewrite <- IH. destruct c; cbn; try reflexivity. now rewrite orb_true_r. Qed.
Lemma null_mem l : mem_enum CNull (kinds l) = explicit_null l.
Proof. rewrite !kinds_mem. unfold explicit_null. induction l as [|c l IH]; [reflexivity|]. cbn [existsb]. rewrite <- IH. destruct c; reflexivity. Qed.
Lemma cdef_says d : says S_column_def (p_cdef d).
Proof.
  pose proof (type_says (d_type d)). pose proof (opt_ccons_say (d_cons d)). unfold p_cdef. sr 66%N. intros k _.
  transitivity (let cs := kinds (d_cons d) in let strict := mem_enum NotNull cs || mem_enum PrimaryKey cs in
    if strict && mem_enum CNull cs then None
    else Some (obj CColumnDefinition [(F_column_constraints, vec cs); (F_name, str (d_name d)); (F_type, ctype_obj (d_type d)); (F_nullable, VBool (negb strict)); (F_references, vec (refs (d_cons d)))])); [reflexivity|].
  cbv zeta. rewrite strict_mem, null_mem. destruct (not_nullable (d_cons d) && explicit_null (d_cons d)); reflexivity.
Qed.
Lemma tcon_says c : tcon_ok c = true -> says S_table_constraint (p_tcon c).
Proof.
  destruct c as [cols|cols|cols r]; cbn [tcon_ok p_tcon]; intros O; apply some_ne, idents_says in O.
  - sr 100%N.
  - sr 101%N.
  - pose proof (ref_says r). sr 102%N.
Qed.
Lemma telem_says e : telem_ok e = true -> says S_table_elem (p_telem e).
Proof. destruct e; cbn [telem_ok p_telem]; intros O; [su 64%N; apply cdef_says|su 65%N; now apply tcon_says]. Qed.
Lemma pids_total l : total (map pid l) = 0.
Proof. induction l as [|x l IH]; [reflexivity|]. cbn [map]. rewrite total_cons, IH. reflexivity. Qed.
Lemma telem_params e : q_params (p_telem e) = 0.
Proof.
  destruct e as [d|[cols|cols|cols r]]; cbn [p_telem].
  - reflexivity.
  - cbn [p_tcon seq_ seqp q_params]. rewrite !total_cons. cbn [ident_list plist q_params]. rewrite pids_total. reflexivity.
  - cbn [p_tcon seq_ seqp q_params]. rewrite !total_cons. cbn [ident_list plist q_params]. rewrite pids_total. reflexivity.
  - cbn [p_tcon seq_ seqp q_params]. rewrite !total_cons. cbn [ident_list plist q_params]. rewrite pids_total, ref_params. reflexivity.
Qed.
Lemma telems_values l k : values (map p_telem l) k = map (fun e => q_obj (p_telem e) k) l.
Proof. unfold values. induction l as [|e l IH]; [reflexivity|]. cbn [map numbered_list]. rewrite telem_params, Nat.add_0_r, IH. reflexivity. Qed.
Lemma telems_ok l k : all_ok (map p_telem l) k = forallb (fun e => q_ok (p_telem e) k) l.
Proof. induction l as [|e l IH]; [reflexivity|]. cbn [map all_ok forallb]. rewrite telem_params, Nat.add_0_r, IH. reflexivity. Qed.
Lemma telems_total l : total (map p_telem l) = 0.
Proof. induction l as [|e l IH]; [reflexivity|]. cbn [map]. rewrite total_cons, IH, telem_params. reflexivity. Qed.
Lemma filter_map A (f : A -> val) g h (l : list A) : (forall x, g (f x) = h x) -> filter g (map f l) = map f (filter h l).
Proof. intros H. induction l as [|x l IH]; [reflexivity|]. cbn [map filter]. rewrite H, IH. destruct (h x); reflexivity. Qed.

(** ** Options of COPY *)
Lemma ftp_says w : says S_file_type (ftype_part w).
Proof. eapply (@says_rule 37%N _ _ [pid w]); [reflexivity|parts_|vm_compute; reflexivity|reflexivity| |reflexivity|cbn; lia]. intros k. cbn. unfold ftype_part. cbn. destruct (file_type w); reflexivity. Qed.
Definition csv_part (w s : bytes) : part :=
  seqp (fun _ => obj CPairCsv [(F_first, if casecmp w (la "DELIMITER") then CsvDelimiter else CsvQuote); (F_second, str s)]) (fun _ => casecmp w (la "DELIMITER") || casecmp w (la "QUOTE")) [pid w; pstring s].
Lemma csv_says w s : says S_csv_option (csv_part w s).
Proof.
  unfold csv_part. sr 48%N. intros k _. change (asem 48 (k + total [pid w; pstring s]) (values [pid w; pstring s] k)) with
    (if casecmp w (la "DELIMITER") then Some (obj CPairCsv [(F_first, CsvDelimiter); (F_second, str s)]) else if casecmp w (la "QUOTE") then Some (obj CPairCsv [(F_first, CsvQuote); (F_second, str s)]) else None).
  destruct (casecmp w (la "DELIMITER")); [reflexivity|]. destruct (casecmp w (la "QUOTE")); reflexivity.
Qed.
Definition csvnull_part (s : bytes) : part := seq_ (fun _ => obj CPairCsv [(F_first, CsvNull); (F_second, str s)]) [kw TOK_NULL; pstring s].
Lemma csvnull_says s : says S_csv_option (csvnull_part s).
Proof. unfold csvnull_part. sr 49%N. Qed.
Lemma file_type_cases w f : file_type w = Some f -> f = kImportCSV \/ f = kImportTbl \/ f = kImportBinary.
Proof. unfold file_type. repeat destruct (casecmp _ _); cbn; intros E; try discriminate; injection E as <-; auto. Qed.
Lemma formats_In l f : In f (formats l) -> f = kImportCSV \/ f = kImportTbl \/ f = kImportBinary.
Proof. unfold formats. intros I. apply in_flat_map in I as (o & _ & I). destruct o; try contradiction. destruct (file_type w) eqn:E; [|contradiction]. destruct I as [<-|[]]. eapply file_type_cases, E. Qed.
Lemma once_cases A (l : list A) : once l = true -> l = [] \/ exists x, l = [x].
Proof. unfold once. destruct l as [|x [|y l]]; cbn; intros H; [now left|right; now exists x|discriminate]. Qed.
(** One more option. *)
Definition copt_rule (l : list copt) (o : copt) : option val :=
  match o with
  | OFormat w => match file_type w with Some f => asem 42 0 [copts_obj l; VUninit; VUninit; f] | None => None end
  | OEncoding s => asem 44 0 [copts_obj l; VUninit; VUninit; str s]
  | OCsv w s => if casecmp w (la "DELIMITER") || casecmp w (la "QUOTE") then asem 46 0 [copts_obj l; VUninit; q_obj (csv_part w s) 0] else None
  | OCsvNull s => asem 46 0 [copts_obj l; VUninit; q_obj (csvnull_part s) 0]
  end.
Lemma copts_step l o : copts_ok l = true -> copt_rule l o = if copts_ok (l ++ [o]) then Some (copts_obj (l ++ [o])) else None.
Proof.
  intros OK. unfold copts_ok in OK. repeat (apply andb_true_iff in OK as [OK ?]).
  assert (FI := @formats_In l). unfold copts_ok, copts_obj, csv_obj, copt_rule, copts_obj, csv_obj. rewrite forallb_app, OK.
  assert (E1 : formats (l ++ [o]) = formats l ++ formats [o]) by apply flat_map_app. assert (E2 : encodings (l ++ [o]) = encodings l ++ encodings [o]) by apply flat_map_app.
  assert (E3 : delimiters (l ++ [o]) = delimiters l ++ delimiters [o]) by apply flat_map_app. assert (E4 : quotes (l ++ [o]) = quotes l ++ quotes [o]) by apply flat_map_app. assert (E5 : nulls_ (l ++ [o]) = nulls_ l ++ nulls_ [o]) by apply flat_map_app.
  rewrite E1, E2, E3, E4, E5. clear E1 E2 E3 E4 E5.
  generalize dependent (formats l). intros fs. generalize dependent (encodings l). intros es. generalize dependent (delimiters l). intros ds. generalize dependent (quotes l). intros qs. generalize dependent (nulls_ l). intros ns. intros HN HQ HD HE HF HC FI.
  cbn [andb forallb known_option formats encodings delimiters quotes nulls_ flat_map]. rewrite !app_nil_r. clear OK l.
  apply once_cases in HN, HQ, HD, HE, HF.
  assert (F3 : fs = [] \/ fs = [kImportCSV] \/ fs = [kImportTbl] \/ fs = [kImportBinary]) by (destruct HF as [->|[f ->]]; [auto|]; destruct (FI f ltac:(now left)) as [->|[->| ->]]; auto). clear HF FI.
  destruct o as [w|s|w s|s]; cbn [known_option].
  - destruct (file_type w) as [f|] eqn:FT; [|reflexivity]. apply file_type_cases in FT as [->|[->| ->]]; destruct F3 as [->|[->|[->| ->]]], HE as [->|[e ->]], HD as [->|[d ->]], HQ as [->|[q ->]], HN as [->|[n ->]]; try discriminate HC; reflexivity.
  - destruct F3 as [->|[->|[->| ->]]], HE as [->|[e ->]], HD as [->|[d ->]], HQ as [->|[q ->]], HN as [->|[n ->]]; try discriminate HC; reflexivity.
  - unfold csv_part. cbn [seqp q_obj]. destruct (casecmp w (la "DELIMITER")).
    + destruct F3 as [->|[->|[->| ->]]], HE as [->|[e ->]], HD as [->|[d ->]], HQ as [->|[q ->]], HN as [->|[n ->]]; try discriminate HC; reflexivity.
    + destruct (casecmp w (la "QUOTE")); [|reflexivity]. destruct F3 as [->|[->|[->| ->]]], HE as [->|[e ->]], HD as [->|[d ->]], HQ as [->|[q ->]], HN as [->|[n ->]]; try discriminate HC; reflexivity.
  - destruct F3 as [->|[->|[->| ->]]], HE as [->|[e ->]], HD as [->|[d ->]], HQ as [->|[q ->]], HN as [->|[n ->]]; try discriminate HC; reflexivity.
Qed.
Lemma once_app A (a b : list A) : once (a ++ b) = true -> once a = true.
Proof. unfold once. rewrite app_length. lia. Qed.
Lemma copts_prefix l o : copts_ok (l ++ [o]) = true -> copts_ok l = true.
Proof.
  unfold copts_ok. rewrite forallb_app. intros OK. repeat (apply andb_true_iff in OK as [OK ?]).
  assert (E1 : formats (l ++ [o]) = formats l ++ formats [o]) by apply flat_map_app. assert (E2 : encodings (l ++ [o]) = encodings l ++ encodings [o]) by apply flat_map_app.
  assert (E3 : delimiters (l ++ [o]) = delimiters l ++ delimiters [o]) by apply flat_map_app. assert (E4 : quotes (l ++ [o]) = quotes l ++ quotes [o]) by apply flat_map_app. assert (E5 : nulls_ (l ++ [o]) = nulls_ l ++ nulls_ [o]) by apply flat_map_app.
  rewrite E1, E2, E3, E4, E5 in *. repeat match goal with H : once (_ ++ _) = true |- _ => apply once_app in H; rewrite H end. rewrite OK. cbn [andb]. destruct (delimiters l ++ quotes l ++ nulls_ l) as [|x r] eqn:E; [reflexivity|].
  destruct ((delimiters l ++ delimiters [o]) ++ (quotes l ++ quotes [o]) ++ nulls_ l ++ nulls_ [o]) as [|y r2] eqn:E6.
  - repeat (apply app_eq_nil in E6 as [E6 ?]). repeat match goal with H : _ ++ _ = [] |- _ => apply app_eq_nil in H as [? ?] end. repeat match goal with H : _ = [] |- _ => rewrite H in E; clear H end. discriminate E.
  - rewrite forallb_app in H. now apply andb_true_iff in H as [-> _].
Qed.
Lemma copt_toks l o : l <> [] -> q_tok (p_copts l) ++ [comma] ++ q_tok (p_copt o) ++ [] = q_tok (p_copts (l ++ [o])).
Proof. intros N. cbn [p_copts q_tok]. rewrite map_app. cbn [map]. rewrite commas_snoc by (destruct l; [contradiction|discriminate]). reflexivity. Qed.
Lemma copts_say l : l <> [] -> says S_import_export_options (p_copts l).
Proof.
  induction l as [|o l IH] using rev_ind; [now intros []|]. intros _. destruct l as [|o0 l].
  - destruct o as [w|s|w s|s]; cbn [app].
    + pose proof (ftp_says w). eapply (@says_rule 43%N _ _ [kw TOK_FORMAT; ftype_part w]); [reflexivity|parts_|vm_compute; reflexivity|reflexivity| |reflexivity|cbn; lia].
      intros k. cbn [all_ok ftype_part q_ok kw token_part p_copts andb]. unfold copts_ok, copts_obj. cbn [forallb known_option formats flat_map]. destruct (file_type w) as [f|] eqn:FT; [|reflexivity].
      apply file_type_cases in FT as FT2. cbn [p_copts q_obj values numbered_list ftype_part]. unfold copts_obj. cbn [formats flat_map]. rewrite FT. destruct FT2 as [->|[->| ->]]; reflexivity.
    + ofr 45%N [kw TOK_ENCODING; pstring s].
    + pose proof (csv_says w s). eapply (@says_rule 47%N _ _ [csv_part w s]); [reflexivity|parts_|vm_compute; reflexivity|reflexivity| |reflexivity|cbn; lia].
      intros k. cbn [all_ok p_copts q_ok q_obj csv_part seqp kw token_part pid pstring q_params]. unfold copts_ok, copts_obj, csv_obj. cbn [forallb known_option formats delimiters quotes nulls_ encodings flat_map values numbered_list csv_part seqp q_obj].
      destruct (casecmp w (la "DELIMITER")); [reflexivity|]. destruct (casecmp w (la "QUOTE")); reflexivity.
    + pose proof (csvnull_says s). ofr 47%N [csvnull_part s].
  - assert (NE : o0 :: l <> []) by discriminate. specialize (IH NE). remember (o0 :: l) as os eqn:EO. clear EO o0 l. pose proof (copt_toks o NE) as TK.
    assert (STEP : forall k v, copt_rule os o = v -> (if copts_ok os then v else None) = (if q_ok (p_copts (os ++ [o])) k then Some (q_obj (p_copts (os ++ [o])) k) else None)).
    { intros k v <-. cbn [p_copts q_ok q_obj]. destruct (copts_ok os) eqn:O; [now apply copts_step|]. destruct (copts_ok (os ++ [o])) eqn:O2; [|reflexivity]. apply copts_prefix in O2. congruence. }
    destruct o as [w|s|w s|s].
    + pose proof (ftp_says w). eapply (@says_rule 42%N _ _ [p_copts os; kw 44; kw TOK_FORMAT; ftype_part w]); [reflexivity|parts_|vm_compute; reflexivity|exact TK| |reflexivity|cbn; lia].
      intros k. rewrite <- (STEP k _ eq_refl). cbn [all_ok p_copts q_ok kw token_part ftype_part andb copt_rule]. destruct (copts_ok os); [|reflexivity]. cbn [andb]. destruct (file_type w) as [f|] eqn:FT; [|reflexivity].
      cbn [values numbered_list p_copts q_obj kw token_part ftype_part]. rewrite FT. reflexivity.
    + eapply (@says_rule 44%N _ _ [p_copts os; kw 44; kw TOK_ENCODING; pstring s]); [reflexivity|parts_|vm_compute; reflexivity|exact TK| |reflexivity|cbn; lia].
      intros k. rewrite <- (STEP k _ eq_refl). cbn [all_ok p_copts q_ok kw token_part pstring andb copt_rule]. destruct (copts_ok os); reflexivity.
    + pose proof (csv_says w s). eapply (@says_rule 46%N _ _ [p_copts os; kw 44; csv_part w s]); [reflexivity|parts_|vm_compute; reflexivity|exact TK| |reflexivity|cbn; lia].
      intros k. rewrite <- (STEP k _ eq_refl). cbn [all_ok p_copts q_ok kw token_part csv_part seqp pid pstring andb copt_rule]. destruct (copts_ok os); [|reflexivity]. cbn [andb]. rewrite andb_true_r. destruct (_ || _); reflexivity.
    + pose proof (csvnull_says s). eapply (@says_rule 46%N _ _ [p_copts os; kw 44; csvnull_part s]); [reflexivity|parts_|vm_compute; reflexivity|exact TK| |reflexivity|cbn; lia].
      intros k. rewrite <- (STEP k _ eq_refl). cbn [all_ok p_copts q_ok kw token_part csvnull_part seq_ seqp pstring andb copt_rule]. destruct (copts_ok os); reflexivity.
Qed.
Lemma options_say wk l : says S_opt_import_export_options (p_options wk l).
Proof.
  unfold p_options. destruct l as [|o l]; [sn 41%N|]. pose proof (@copts_say (o :: l) ltac:(discriminate)). destruct wk; [sr 39%N|sr 40%N].
Qed.
Lemma options_obj wk l k : q_obj (p_options wk l) k = copts_obj l.
Proof. destruct l as [|o l]; [reflexivity|]. destruct wk; reflexivity. Qed.

(** ** Statements *)
Lemma ine_says b : says S_opt_not_exists (p_ine b). Proof. destruct b; cbn [p_ine]; [sr 60%N|sn 61%N]. Qed.
Lemma ie_says b : says S_opt_exists (p_ie b). Proof. destruct b; cbn [p_ie]; [sr 108%N|sn 109%N]. Qed.
Lemma path_says s : says S_file_path (pstring s). Proof. su 38%N. Qed.
Ltac tn t := let k := fresh "k" in intros k _; destruct t as [[?s|] ?n]; reflexivity.
(** The symbol of a statement. *)
Definition stmt_sym (s : stmt) : N :=
  match s with
  | SSelect _ _ => S_select_statement | SInsert _ _ _ | SInsertQuery _ _ _ => S_insert_statement | SUpdate _ _ _ => S_update_statement | SDelete _ _ => S_delete_statement | STruncate _ => S_truncate_statement
  | SCreateTable _ _ _ | SCreateTableAs _ _ _ _ | SCreateTableFile _ _ _ _ | SCreateView _ _ _ _ _ | SCreateIndex _ _ _ _ => S_create_statement
  | SDrop _ _ | SDeallocate _ => S_drop_statement | SAlterDropColumn _ _ _ _ => S_alter_statement | SExecute _ _ => S_execute_statement | STransaction _ _ => S_transaction_statement
  | SPrepare _ _ => S_prepare_statement | SShowTables | SShowColumns _ | SDescribe _ => S_show_statement
  | SImport _ _ _ | SCopyFrom _ _ _ _ _ => S_import_statement | SCopyTo _ _ _ _ | SCopyQueryTo _ _ _ _ => S_export_statement
  end.
Lemma stmt_says s : stmt_ok s = true -> fine (stmt_parts s) -> says (stmt_sym s) (p_stmt s).
Proof.
  destruct s as [w s|t cols vals|t cols q|t l w|t w|t|ine t l|ine t w s|ine t ty file|ine t cols w s|ine n t cols|ie d|n|ie t iec col|n args|t kwd|n sql| |t|t|ty file t|t file wk o w|t file wk o|q file wk o]; cbn [stmt_ok stmt_parts p_stmt stmt_sym]; intros O F; bools.
  - now apply select_says.
  - pose proof (tname_says t). pose proof (columns_says cols). apply some_ne, clits_says in O. sr 115%N. tn t.
  - pose proof (tname_says t). pose proof (columns_says cols). pose proof (proj1 queries_say q O F). sr 116%N. tn t.
  - assert (T : says S_table_ref_name_no_alias (seq_ (fun _ => obj CTableRef [(F_type, kTableName); (F_schema, schema_of t); (F_name, name_of t)]) [p_tname t])) by (pose proof (tname_says t); sr 308%N; tn t).
    assert (W : says S_opt_where (p_where w)) by now apply where_says.
    assert (L : says S_update_clause_commalist (plist (map p_update l))).
    { pl 120%N 121%N; [now apply map_ne, some_ne|]. eapply Forall_map_says; [|eassumption|eassumption]. intros u A B. pose proof (pex_says A B). unfold p_update. sr 122%N. }
    pose proof (says_pos (tname_says t)). eapply (@says_rule 119%N _ _ [kw TOK_UPDATE; _; kw TOK_SET; plist (map p_update l); p_where w]); [reflexivity|parts_|vm_compute; reflexivity| | | |].
    + cbn [flat_map seq_ seqp q_tok]. rewrite !app_nil_r. reflexivity.
    + intros k. cbn [seq_ seqp q_ok]. rewrite andb_true_r. destruct t as [[s|] n]; match goal with |- (if ?a then _ else _) = (if ?b then _ else _) => change a with b; destruct b; reflexivity end.
    + destruct t as [[s|] n]; reflexivity.
    + destruct t as [[s|] n]; cbn; lia.
  - pose proof (tname_says t). assert (W : says S_opt_where (p_where w)) by now apply where_says. sr 113%N. tn t.
  - pose proof (tname_says t). sr 114%N. tn t.
  - pose proof (tname_says t). pose proof (ine_says ine).
    assert (L : says S_table_elem_commalist (plist (map p_telem l))).
    { pl 62%N 63%N; [now apply map_ne, some_ne|]. apply Forall_forall. intros p I. apply in_map_iff in I as (e & <- & I). apply telem_says. rewrite forallb_forall in *. auto. }
    eapply (@says_rule 56%N _ _ [kw TOK_CREATE; kw TOK_TABLE; p_ine ine; p_tname t; kw 40; plist (map p_telem l); kw 41]); [reflexivity|parts_|vm_compute; reflexivity| | | |].
    + cbn [flat_map plist q_tok kw token_part]. rewrite map_map, app_nil_r. reflexivity.
    + intros k. set (P := plist (map p_telem l)). assert (Z : k + 0 + 0 + q_params (p_ine ine) + q_params (p_tname t) + 0 = k) by (destruct ine, t as [[s|] n]; cbn; lia).
      assert (E : all_ok [kw TOK_CREATE; kw TOK_TABLE; p_ine ine; p_tname t; kw 40; P; kw 41] k = forallb (fun e => q_ok (p_telem e) k) l).
      { cbn [all_ok kw token_part q_ok q_params andb]. rewrite Z. replace (q_ok (p_ine ine) (k + 0 + 0)) with true by (destruct ine; reflexivity). replace (q_ok (p_tname t) (k + 0 + 0 + q_params (p_ine ine))) with true by (destruct t as [[s|] n]; reflexivity).
        cbn [andb]. unfold P. cbn [plist q_ok]. rewrite telems_ok, andb_true_r. reflexivity. }
      rewrite E. cbn [q_ok]. destruct (forallb (fun e : telem => q_ok (p_telem e) k) l); [|reflexivity]. cbn [values numbered_list kw token_part q_obj q_params]. rewrite Z. unfold P. cbn [plist q_obj]. rewrite telems_values.
      assert (FC : filter (is_class [CColumnDefinition]) (map (fun e => q_obj (p_telem e) k) l) = map (fun e => q_obj (p_telem e) k) (filter is_column l)) by (apply filter_map; intros [d|[]]; reflexivity).
      assert (FK : filter (is_class [CTableConstraint; CForeignKeyConstraint]) (map (fun e => q_obj (p_telem e) k) l) = map (fun e => q_obj (p_telem e) k) (filter (fun e => negb (is_column e)) l)) by (apply filter_map; intros [d|[]]; reflexivity).
      rewrite <- FC, <- FK. destruct ine, t as [[s|] n]; reflexivity.
    + rewrite !total_cons. cbn [plist q_params]. rewrite telems_total. destruct ine, t as [[s|] n]; reflexivity.
    + cbn [map plist q_stack kw token_part]. rewrite map_map. reflexivity.
  - pose proof (tname_says t). pose proof (ine_says ine). pose proof (@select_says w s O F). sr 57%N. intros k _. destruct ine, t as [[?s|] ?n]; reflexivity.
  - pose proof (tname_says t). pose proof (ine_says ine). pose proof (path_says file). sr 55%N. intros k _. destruct ine, t as [[?s|] ?n]; reflexivity.
  - pose proof (tname_says t). pose proof (ine_says ine). pose proof (columns_says cols). pose proof (@select_says w s O F). sr 59%N. intros k _. destruct ine, t as [[?s|] ?n]; reflexivity.
  - pose proof (tname_says t). pose proof (ine_says ine). apply some_ne, idents_says in O. assert (says S_opt_index_name (match n with Some n => pid n | None => nothing VNull end)) by (destruct n; [su 311%N|sn 312%N]).
    sr 58%N. intros k _. destruct ine, t as [[?s|] ?m], n; reflexivity.
  - pose proof (ie_says ie). destruct d as [t|t|n].
    + pose proof (tname_says t). sr 104%N. intros k _. destruct ie, t as [[?s|] ?n]; reflexivity.
    + pose proof (tname_says t). sr 105%N. intros k _. destruct ie, t as [[?s|] ?n]; reflexivity.
    + sr 107%N. intros k _. destruct ie; reflexivity.
  - sr 106%N.
  - pose proof (tname_says t). pose proof (ie_says ie). pose proof (ie_says iec).
    assert (says S_alter_action (seq_ (fun v => obj CDropColumnAction [(F_columnName, str col); (F_ifExists, VBool iec)]) [kw TOK_DROP; kw TOK_COLUMN; p_ie iec; pid col])) by (su 111%N; sr 112%N; intros k _; destruct iec; reflexivity).
    sr 110%N. intros k _. destruct ie, t as [[?s|] ?n]; reflexivity.
  - destruct args as [l|]; [|sr 33%N]. assert (says S_opt_extended_literal_list (match l with [] => nothing VNull | _ => plist (map p_clit l) end)) by (destruct l as [|x l]; [sn 174%N|su 173%N; now apply clits_says]). sr 34%N.
  - assert (says S_opt_transaction_keyword (if kwd then seq_ (fun _ => VUninit) [kw TOK_TRANSACTION] else nothing VUninit)) by (destruct kwd; [sr 29%N|sn 30%N]). destruct t; [sr 26%N|sr 27%N|sr 28%N].
  - assert (says S_prepare_target_query (pstring sql)) by su 32%N. sr 31%N.
  - sr 52%N.
  - pose proof (tname_says t). sr 53%N. tn t.
  - pose proof (tname_says t). sr 54%N. tn t.
  - pose proof (tname_says t). pose proof (ftp_says ty). pose proof (path_says file). sr 35%N. tn t.
  - pose proof (tname_says t). pose proof (path_says file). pose proof (options_say wk o). assert (W : says S_opt_where (p_where w)) by now apply where_says. sr 36%N.
    intros k _. cbn [values numbered_list]. rewrite options_obj. destruct t as [[s|] n]; reflexivity.
  - pose proof (tname_says t). pose proof (path_says file). pose proof (options_say wk o). sr 50%N. intros k _. cbn [values numbered_list]. rewrite options_obj. destruct t as [[s|] n]; reflexivity.
  - pose proof (path_says file). pose proof (options_say wk o). pose proof (proj1 (proj2 queries_say) q O F). sr 51%N. intros k _. cbn [values numbered_list]. rewrite options_obj. reflexivity.
Qed.
Lemma hint_says h : says S_hint (p_hint h).
Proof. unfold p_hint. destruct (h_args h) as [|a l]; [sr 24%N|]. pose proof (@clits_says (a :: l) ltac:(discriminate)). sr 25%N. Qed.
Lemma hints_say l : says S_opt_hints (p_hints l).
Proof.
  unfold p_hints. destruct l as [|h l]; [sn 21%N|]. assert (says S_hint_list (plist (map p_hint (h :: l)))) by (pl 22%N 23%N; [discriminate|apply Forall_map_all, hint_says]). sr 20%N.
Qed.
Lemma hinted_says s : stmt_ok (fst s) = true -> fine (stmt_parts (fst s)) -> says S_statement (p_hinted s).
Proof.
  intros O F. pose proof (stmt_says O F) as H. pose proof (hints_say (snd s)) as HH. unfold p_hinted. destruct s as [s hs]; cbn [fst snd] in *.
  destruct s; cbn [hintable stmt_sym] in *; try (su 7%N; exact H); try (su 8%N; exact H); try (su 9%N; exact H); try (sr 5%N; fail).
  all: match type of H with says ?X ?p => match eval vm_compute in X with
         | _ => assert (P : says S_preparable_statement p) by (first [su 10%N; exact H|su 11%N; exact H|su 12%N; exact H|su 13%N; exact H|su 14%N; exact H|su 15%N; exact H|su 16%N; exact H|su 17%N; exact H|su 18%N; exact H|su 19%N; exact H]); sr 6%N
         end end.
Qed.
Lemma semis_snoc l (x : toks) : l <> [] -> semis (l ++ [x]) = semis l ++ [K 59] ++ x ++ [].
Proof.
  induction l as [|y l IH]; intros N; [now contradiction N|]. destruct l as [|z l]; [cbn; now rewrite app_nil_r|].
  assert (E : forall (a : toks) b, b <> [] -> semis (a :: b) = a ++ [K 59] ++ semis b) by (intros a [|? ?] Q; [now contradiction Q|reflexivity]).
  rewrite <- app_comm_cons, !E by discriminate. rewrite IH by discriminate. rewrite <- !app_assoc. reflexivity.
Qed.
Theorem script_says l : l <> [] -> Forall (fun s => stmt_ok (fst s) = true /\ fine (stmt_parts (fst s))) l -> says S_statement_list (p_script l).
Proof.
  induction l as [|s l IH] using rev_ind; [now intros []|]. intros _ F. apply Forall_app in F as [F1 F2]. destruct (Forall_inv F2) as [O FS]. pose proof (hinted_says O FS) as H. pose proof (says_pos H) as POS. destruct l as [|s0 l].
  - eapply (@says_rule 3%N _ _ [p_hinted s]); [reflexivity|parts_|vm_compute; reflexivity|cbn; now rewrite app_nil_r| |cbn; lia|cbn; lia].
    intros k. cbn [app p_script map q_ok q_obj all_ok values numbered_list]. rewrite andb_true_r. destruct (q_ok (p_hinted s) k); reflexivity.
  - assert (NE : s0 :: l <> []) by discriminate. specialize (IH NE F1). remember (s0 :: l) as ss eqn:ES. clear ES s0 l.
    eapply (@says_rule 4%N _ _ [p_script ss; kw 59; p_hinted s]); [reflexivity|parts_|vm_compute; reflexivity| | | |].
    + cbn [flat_map p_script q_tok]. rewrite !map_app. cbn [map]. rewrite semis_snoc by (destruct ss; [contradiction|discriminate]). reflexivity.
    + intros k. cbn [p_script q_ok q_obj all_ok values numbered_list kw token_part q_params]. rewrite !map_app. cbn [map]. fold (values (map p_hinted ss) k). fold (values (map p_hinted ss ++ [p_hinted s]) k). rewrite values_snoc, all_ok_snoc, Nat.add_0_r, andb_true_r. cbn [andb].
      destruct (_ && _); [|reflexivity]. rewrite map_app. reflexivity.
    + rewrite !total_cons. cbn [p_script q_params kw token_part]. rewrite map_app. cbn [map]. rewrite total_snoc. unfold total at 2. cbn. lia.
    + cbn [p_script q_stack map]. rewrite !map_app. cbn [map]. rewrite list_stack_snoc. pose proof (list_stack_pos (map q_stack (map p_hinted ss))). cbn [stack stack_from kw token_part q_stack]. lia.
Qed.
