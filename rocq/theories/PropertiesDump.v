(** Theorems about the tools that print a table as an LGR document, and about
    tolerant reading.  Statements only. *)
From Verif Require Import Base UtilsModel CharModel RepSpec RefModel Rfc7940Model LgrModel LgrSpec MetaModel MetaSpec AnnotateModel AnnotateSpec SerialModel SerialSpec SerialWitness
  TableModel TableSpec TableWitness DumpModel DumpSpec DumpFinal DumpIdna DumpWitness DocModel DocWitness RfcToolWitness ForceProofs.
Open Scope N_scope.
Open Scope string_scope.
Open Scope list_scope.

(** C83: what is printed for a file with one code point or sequence per line is
    read back, tolerantly or not, with exactly what the file mentions. *)
Theorem C83_one_per_line : forall lang_check dig, knows_digits dig -> forall lines db allow force,
  accepts db allow (fun x => exists line t c, In line lines /\ states line t /\ mentions t c /\ In x c) ->
  exists doc, dump_lines lines = Ok doc /\ reads lang_check dig db allow force doc (fun m g =>
    same_metadata new_metadata m /\
    (forall c, lookup (lg_rep g) c <> None <-> c <> [] /\ exists line t, In line lines /\ states line t /\ mentions t c) /\
    (forall c ch, lookup (lg_rep g) c = Some ch -> nothing_else ch /\ is_range ch = false) /\ rm_refs (lg_refs g) = []).
Proof. exact lines_dumped. Qed.
Print Assumptions C83_one_per_line.
Example C83_one_per_line_nontrivial : seen_at (again_lgr false (dump_lines line_sample)) [98; 223] = Some ([], []) /\
  seen_at (again_lgr false (dump_lines line_sample)) [97] = Some ([], []) /\ seen_at (again_lgr false (dump_lines line_sample)) [98] = None.
Proof. vm_compute. auto. Qed.

(** ... for an RFC 4290 table, exactly what the table asks for; ... *)
Theorem C83_rfc4290 : forall lang_check dig, knows_digits dig -> forall lines evs db allow force,
  asks_4290 None lines evs true -> accepts db allow (asked evs) ->
  exists doc, dump_4290 lines = Ok doc /\ reads lang_check dig db allow force doc (fun m g => same_metadata new_metadata m /\ holds evs g).
Proof. exact table_4290_dumped. Qed.
Print Assumptions C83_rfc4290.
Example C83_rfc4290_nontrivial : asks_4290 None misplaced_4290 [ECp [97] []; EVar [97] [99] None []] true /\
  seen_at (again_lgr false (dump_4290 sample_4290)) [97] = Some ([([98], None); ([99; 100], None); ([103], None)], []).
Proof. exact (conj asks_misplaced eq_refl). Qed.
(** when reading stops early nothing is printed; ... *)
Theorem C83_rfc4290_stops : forall lines evs, asks_4290 None lines evs false -> dump_4290 lines = Raise TypeError.
Proof. exact stops_4290. Qed.
Print Assumptions C83_rfc4290_stops.
Example C83_rfc4290_stops_nontrivial : dump_4290 [txt "U+0062-x|U+0063"] = Raise TypeError.
Proof. vm_compute. reflexivity. Qed.

(** ... for an RFC 3743 table, exactly what the table asks for, and the date and
    version of its last version line: with force, or without version line. *)
Theorem C83_rfc3743_partial : forall lang_check dig, knows_digits dig -> forall enc lines evs vers db allow force,
  file_3743 enc lines evs vers -> cites_once lines ->
  (forall id value, ~ In (ERef id value (Some "")) evs) -> accepts db allow (asked evs) -> force = true \/ vers = [] ->
  exists doc, dump_3743 enc lines = Ok doc /\ reads lang_check dig db allow force doc (fun m g =>
    same_metadata (table_metadata (last_version vers)) m /\ holds evs g).
Proof. exact table_3743_dumped. Qed.
Print Assumptions C83_rfc3743_partial.
Example C83_rfc3743_nontrivial : knows_digits ascii_digit /\ file_3743 TableWitness.plain undated_3743 sample_events [] /\ cites_once undated_3743 /\
  (forall id value, ~ In (ERef id value (Some "")) sample_events) /\
  seen_at (again_lgr false (dump_3743 TableWitness.plain undated_3743)) [19968] =
    Some ([([19969], Some "activated"); ([19970], None); ([19971; 19972], None)], ["1"]).
Proof. exact (conj ascii_knows (conj undated_file (conj (proj2 sample_cites) (conj sample_comments (proj2 undated_again))))). Qed.
(** Refuted without force: no table with a version line is printed as a document
    that can be read, the date has no dashes. *)
Theorem C83_version_refuted : forall lang_check dig enc lines evs v vers db allow,
  file_3743 enc lines evs (v :: vers) ->
  exists doc, dump_3743 enc lines = Ok doc /\
    parse_document lang_check dig db allow false doc = (None, Raise (LGRFormatException INVALID_DATE_TAG)).
Proof. exact version_refused. Qed.
Print Assumptions C83_version_refuted.
Example C83_version_nontrivial : file_3743 TableWitness.plain sample_3743 sample_events [(49, txt "20050331", None)].
Proof. exact sample_file. Qed.
(** Nor one that cites a reference twice. *)
Theorem C83_cited_twice_refuted : exists lines, lines = [txt "Reference 1 Unicode"; txt "U+4E00(1,1)"] /\
  snd (again false (dump_3743 TableWitness.plain lines)) = Raise (DuplicateReference [19968]).
Proof. exact (ex_intro _ _ (conj eq_refl twice_refused)). Qed.
Print Assumptions C83_cited_twice_refuted.
(** An empty comment is lost. *)
Theorem C83_empty_comment_refuted : exists lines,
  dget String.eqb "1" (rm_refs (lg_refs (st_lgr (fst (parse_3743 TableWitness.plain true false lines))))) = Some (mkRef "Unicode " (Some "")) /\
  dget String.eqb "1" (rm_refs (lg_refs (again_lgr false (dump_3743 TableWitness.plain lines)))) = Some (mkRef "Unicode " None).
Proof. exact (ex_intro _ _ empty_lost). Qed.
Print Assumptions C83_empty_comment_refuted.

(** C83, the registry of IDNA properties: when no code point is listed twice, what
    is printed is read back with exactly the code points listed as PVALID,
    CONTEXTO or CONTEXTJ. *)
Theorem C83_idna_registry : forall lang_check dig, knows_digits dig -> forall db allow force recs,
  well_formed recs -> listed_once recs -> accepts db allow (fun x => exists r, In r recs /\ lists r x) ->
  exists doc, idna_repertoire recs = Ok doc /\
    reads lang_check dig db allow force doc (fun m g => same_metadata new_metadata m /\ rm_refs (lg_refs g) = [] /\
      (forall c, lookup (lg_rep g) c <> None <-> exists x, c = [x] /\ exists r, In r recs /\ lists r x) /\
      forall c ch, lookup (lg_rep g) c = Some ch -> nothing_else ch).
Proof. exact idna_dumped. Qed.
Print Assumptions C83_idna_registry.
Example C83_idna_registry_nontrivial : well_formed sample_registry /\ listed_once sample_registry /\
  let g := again_lgr false (idna_repertoire sample_registry) in
  map (fun x => match lookup (lg_rep g) [x] with Some _ => true | None => false end) [44; 45; 96; 97; 98; 99; 100; 183; 8203; 8204; 8205; 888] =
  [false; true; false; true; true; true; false; true; false; true; true; false].
Proof. exact (conj registry_formed (conj registry_once registry_again)). Qed.
(** Otherwise nothing is printed: a code point is there already. *)
Theorem C83_idna_registry_refused : forall recs, well_formed recs -> ~ listed_once recs -> exists z, idna_repertoire recs = Raise (CharAlreadyExists [z]).
Proof. exact idna_refused. Qed.
Print Assumptions C83_idna_registry_refused.
Example C83_idna_registry_refused_nontrivial : well_formed overlapping_registry /\ ~ listed_once overlapping_registry /\
  idna_repertoire overlapping_registry = Raise (CharAlreadyExists [98]).
Proof. exact overlapping. Qed.

(** C84: a document that is read without force is read with force, with the same
    result: metadata, entries, classes, rules, actions and test results. *)
Theorem C84_strict_is_tolerant : forall lang_check dig db fuel allow d x,
  read_document lang_check dig db fuel allow false d = Ok x -> read_document lang_check dig db fuel allow true d = Ok x.
Proof. exact strict_is_tolerant. Qed.
Print Assumptions C84_strict_is_tolerant.
Example C84_strict_is_tolerant_nontrivial : read_document every_lang ascii_digit (Some d_db) 30 false false d_doc = Ok (Some d_loaded) /\
  lookup (lg_rep (ld_lgr d_loaded)) [98] <> None.
Proof. split; [exact d_ok|vm_compute; discriminate]. Qed.
(** What is refused with force is refused without. *)
Theorem C84_refused_anyway : forall lang_check dig db fuel allow d e,
  read_document lang_check dig db fuel allow true d = Raise e -> exists e', read_document lang_check dig db fuel allow false d = Raise e'.
Proof. exact refused_anyway. Qed.
Print Assumptions C84_refused_anyway.
Example C84_refused_anyway_nontrivial : tolerantly (mkDocument None d_data None) = Raise TypeError /\ strictly (mkDocument None d_data None) = Raise TypeError.
Proof. vm_compute. auto. Qed.
(** Refuted: that what strict reading refuses shows in the tests.  The RFC 7940 tool
    says PASS of a document that cites an undefined reference. *)
Theorem C84_undefined_reference_refuted : exists d, strictly d = Raise (ReferenceNotDefined "7") /\ w_tool (Some true) true false d = Ok ("PASS" ++ nl)%string.
Proof. exact (ex_intro _ _ undefined_passes). Qed.
Print Assumptions C84_undefined_reference_refuted.
(** Tolerant reading keeps a repeated citation, and a date that is none. *)
Theorem C84_repeated_reference_refuted : exists d, strictly d = Raise (DuplicateReference [97]) /\
  exists x ch, tolerantly d = Ok (Some x) /\ lookup (lg_rep (ld_lgr x)) [97] = Some ch /\ ch_refs ch = ["7"; "7"].
Proof. exact (ex_intro _ _ twice_kept). Qed.
Print Assumptions C84_repeated_reference_refuted.
Theorem C84_date_refuted : exists d, strictly d = Raise (LGRFormatException INVALID_DATE_TAG) /\
  exists x, tolerantly d = Ok (Some x) /\ md_date (ld_meta x) = Some (txt "soon").
Proof. exact (ex_intro _ _ date_kept). Qed.
Print Assumptions C84_date_refuted.
