(** Property theorems about the miscellaneous RFC 7940 checks, the IDNA 2008
    report and the script of a root zone label (C55, C56, C57).
    Statements only. *)
From Verif Require Import Base CharModel RepSpec LgrModel LgrSpec Rfc7940Model Rfc7940Spec ValidateSpec ValidateFinal CompareModel MetaModel
  ChecksModel ChecksSpec ChecksProofs ChecksFinal UtilsModel.
Open Scope string_scope.
Open Scope list_scope.

(** C55: success means standard dispositions, usable variant types, code
    points valid in the declared Unicode version (when it is the database's)
    and ascending references.  Missing: histories that leave a range with some
    members removed. *)
Theorem C55_verdict_partial : forall db d, tidy (doc_lgr d) ->
  exists b, snd (check_miscellaneous (Some db) d) = Ok b /\
    (b = true <-> rules_ok d /\ types_ok (doc_lgr d) /\ (same_version db d -> code_points_ok db (doc_lgr d)) /\ refs_ok (doc_lgr d)).
Proof. exact misc_verdict. Qed.
Print Assumptions C55_verdict_partial.

(** Which tests are recorded, and which as failed. *)
Theorem C55_recorded_partial : forall db d, tidy (doc_lgr d) -> let g := doc_lgr d in
  let rs := fst (check_miscellaneous (Some db) d) in
  executed rs "standard_dispositions" /\ (failed rs "standard_dispositions" <-> ~ rules_ok d) /\
  (executed rs "data_variant_type" <-> rules_ok d /\ exists c ch, lookup (lg_rep g) c = Some ch /\ is_range ch = false) /\
  (failed rs "data_variant_type" <-> rules_ok d /\ ~ types_ok g) /\
  (executed rs "codepoint_valid" <-> rules_ok d /\ same_version db d) /\
  (failed rs "codepoint_valid" <-> rules_ok d /\ same_version db d /\ ~ code_points_ok db g) /\
  (executed rs "valid_unicode_version" <-> rules_ok d /\ same_version db d) /\ ~ failed rs "valid_unicode_version" /\
  (executed rs "ref_attribute_ascending" <-> rules_ok d) /\
  (failed rs "ref_attribute_ascending" <-> rules_ok d /\ ~ refs_ok g) /\
  (forall t, executed rs t -> In t ["standard_dispositions"; "data_variant_type"; "codepoint_valid"; "valid_unicode_version"; "ref_attribute_ascending"]).
Proof. exact misc_recorded. Qed.
Print Assumptions C55_recorded_partial.

Theorem C55_range_only_refuted : exists db d pol, tidy (doc_lgr d) /\
  (forall t p, In (t, p) pol -> In t ["standard_dispositions"; "data_variant_type"; "codepoint_valid"; "ref_attribute_ascending"]) /\
  snd (check_miscellaneous (Some db) d) = Ok true /\
  get_final_result (fun t => t) (apply_reports [] (fst (check_miscellaneous (Some db) d))) (Some pol) false = "FAIL".
Proof. exact range_only_fails. Qed.
Print Assumptions C55_range_only_refuted.

Theorem C55_every_fault_recorded_refuted : exists db d, tidy (doc_lgr d) /\
  ~ types_ok (doc_lgr d) /\ ~ refs_ok (doc_lgr d) /\ same_version db d /\ ~ code_points_ok db (doc_lgr d) /\
  forall t, failed (fst (check_miscellaneous (Some db) d)) t -> t = "standard_dispositions".
Proof. exact data_hidden. Qed.
Print Assumptions C55_every_fault_recorded_refuted.

Theorem C55_no_database_refuted : exists d, tidy (doc_lgr d) /\ rules_ok d /\ snd (check_miscellaneous None d) = Raise TypeError.
Proof. exact no_database_raises. Qed.
Print Assumptions C55_no_database_refuted.

Example C55_nontrivial : tidy (lgr_of fair_ops) /\
  snd (check_miscellaneous (Some toy_ucd) (doc_for fair_ops ["blocked"] (txt "6.3.0"))) = Ok true /\
  let rs := fst (check_miscellaneous (Some toy_ucd) (doc_for foul_ops ["blocked"] (txt "6.3.0"))) in
  failed rs "data_variant_type" /\ failed rs "codepoint_valid" /\ failed rs "ref_attribute_ascending" /\ ~ failed rs "standard_dispositions".
Proof. exact (conj fair_tidy (conj fair_passes foul_results)). Qed.

(** C56: the report lists, once each, the entries with a code point that IDNA
    2008 refuses and that are not declared out of the repertoire; [es] is any
    listing of the entries. *)
Theorem C56_report : forall db g es, lgr_reachable g -> enumerates (lg_rep g) es ->
  let '(some, report, compliant) := check_idna2008 db g in
  NoDup (map il_cp report) /\
  (forall line, In line report <-> exists ch, lookup (lg_rep g) (il_cp line) = Some ch /\
     (exists x, In x (il_cp line) /\ ~ idna_ok db x) /\ ~ declared_out g (il_cp line) /\
     il_property line = map (ucd_idna db) (il_cp line) /\
     (il_idna2003 line = true <-> forall x, In x (il_cp line) -> ucd_idna2003_disallowed db x = false)) /\
  (some = true <-> report <> []) /\
  (compliant + Z.of_nat (length report))%Z = Z.of_nat (length es).
Proof. exact idna2008_spec. Qed.
Print Assumptions C56_report.

Theorem C56_compliant_count_refuted : exists db g, lgr_reachable g /\
  let '(_, _, compliant) := check_idna2008 db g in
  forall es, NoDup es -> (forall c, In c es -> lookup (lg_rep g) c <> None /\ forall x, In x c -> idna_ok db x) ->
  (Z.of_nat (length es) < compliant)%Z.
Proof. exact counted_compliant. Qed.
Print Assumptions C56_compliant_count_refuted.

Example C56_nontrivial : lgr_reachable (lgr_of out_ops) /\
  check_idna2008 toy_ucd (lgr_of out_ops) = (true, [mkIdnaLine [70; 300] ["PVALID"; "DISALLOWED"] false], 2%Z).
Proof. exact (conj (lgr_of_reachable out_ops) out_report). Qed.

(** C57: the LGR chosen for a label is that of its first code point with a
    script of its own (Han in first place apart). *)
Theorem C57_first_script : forall script label before x, first_own script label before x -> before <> [] \/ script x <> "Hani" ->
  exists tag, get_rz_label_script script label = Some tag /\ lgr_tag (script x) tag.
Proof. exact rz_own. Qed.
Print Assumptions C57_first_script.

Theorem C57_han_first : forall script x rest, script x = "Hani" ->
  ((exists y, In y rest /\ is_kana (script y)) -> get_rz_label_script script (x :: rest) = Some "und-Jpan") /\
  (~ (exists y, In y rest /\ is_kana (script y)) -> get_rz_label_script script (x :: rest) = Some "und-Hani").
Proof. exact rz_han. Qed.
Print Assumptions C57_han_first.

Theorem C57_no_script : forall script label, label <> [] -> (forall y, In y label -> neutral (script y)) ->
  ((exists y, In y label /\ (y = 12294 \/ y = 12540)%N) -> get_rz_label_script script label = Some "und-Jpan") /\
  (~ (exists y, In y label /\ (y = 12294 \/ y = 12540)%N) ->
   get_rz_label_script script label = Some ("und-" ++ script (last label 0%N))%string).
Proof. exact rz_neutral. Qed.
Print Assumptions C57_no_script.

Theorem C57_leading_common_refuted : exists script c label, neutral (script c) /\ get_rz_label_script script label = Some "und-Jpan" /\
  get_rz_label_script script (c :: label) = Some "und-Hani".
Proof. exact rz_order. Qed.
Print Assumptions C57_leading_common_refuted.

Example C57_nontrivial : get_rz_label_script toy_script [] = None /\
  first_own toy_script [1; 2; 25; 40]%N [1; 2]%N 25%N /\ get_rz_label_script toy_script [1; 2; 25; 40]%N = Some "und-Jpan".
Proof.
  split; [reflexivity|]. split; [|vm_compute; reflexivity].
  split; [exists [40%N]; reflexivity|]. split; [|intros [H|H]; discriminate].
  intros y [H|[H|[]]]; subst; left; reflexivity.
Qed.
