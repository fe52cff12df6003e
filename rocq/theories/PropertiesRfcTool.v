(** Property theorems about the RFC 7940 tool (C80).  Statements only.  [dig] is
    the digit class of Python, which has no line feed; the Unicode database, the
    language registry, the media types and the date are any. *)
From Verif Require Import Base UtilsModel CharModel RepSpec ActionModel LgrModel MetaModel MetaSpec SerialModel SerialWitness Rfc7940Model.
From Verif Require Import ClassModel RulesXmlModel RulesXmlWitness DocModel CompareModel ChecksModel ChecksSpec ReadySpec RfcToolModel RfcToolSpec RfcToolVerdict RfcToolWitness.
Open Scope string_scope.
Open Scope list_scope.

(** C80: the verdict for a document that could be read is FAIL exactly if
    something is wrong with it, WARN if nothing is but something is doubtful, and
    PASS otherwise. *)
Theorem C80_verdict : forall lang_check dig mime today desc u script classes get_script scripts fuel, dig 10%N = false ->
  forall rng test d x out, read_document lang_check dig (Some (tool_db u script, classes)) fuel false true d = Ok (Some x) -> rng <> Some false ->
  rfc7940_tool lang_check dig mime today desc u script classes get_script scripts fuel rng true test d = Ok out ->
  (out = "FAIL" ++ nl <-> faulty lang_check mime today u rng test d x)%string /\
  (out = "WARN" ++ nl <-> ~ faulty lang_check mime today u rng test d x /\ doubtful dig d x)%string /\
  (out = "PASS" ++ nl <-> ~ faulty lang_check mime today u rng test d x /\ ~ doubtful dig d x)%string.
Proof. exact tool_verdict. Qed.
Print Assumptions C80_verdict.

(** It gives a verdict unless the last <version> is empty, which it cannot
    check. *)
Theorem C80_answers : forall lang_check dig mime today desc u script classes get_script scripts fuel rng quiet test d x,
  read_document lang_check dig (Some (tool_db u script, classes)) fuel false true d = Ok (Some x) -> rng <> Some false ->
  (test = false /\ empty_version d /\ rfc7940_tool lang_check dig mime today desc u script classes get_script scripts fuel rng quiet test d = Raise TypeError) \/
  ((test = true \/ ~ empty_version d) /\ exists out, rfc7940_tool lang_check dig mime today desc u script classes get_script scripts fuel rng quiet test d = Ok out).
Proof. exact tool_says. Qed.
Print Assumptions C80_answers.

(** The full report ends with the verdict. *)
Theorem C80_report : forall lang_check dig mime today desc u script classes get_script scripts fuel rng test d x out,
  read_document lang_check dig (Some (tool_db u script, classes)) fuel false true d = Ok (Some x) -> rng <> Some false ->
  rfc7940_tool lang_check dig mime today desc u script classes get_script scripts fuel rng true test d = Ok out ->
  exists before, rfc7940_tool lang_check dig mime today desc u script classes get_script scripts fuel rng false test d = Ok (before ++ out)%string.
Proof. exact tool_verbose. Qed.
Print Assumptions C80_report.

(** A document that does not conform to the schema, or without <meta>, fails; an
    error of reading is not caught. *)
Theorem C80_unread : forall lang_check dig mime today desc u script classes get_script scripts fuel rng quiet test d,
  (rng = Some false -> rfc7940_tool lang_check dig mime today desc u script classes get_script scripts fuel rng quiet test d = Ok ("FAIL" ++ nl)%string) /\
  (forall out, dc_meta d = None -> rfc7940_tool lang_check dig mime today desc u script classes get_script scripts fuel rng quiet test d = Ok out -> out = ("FAIL" ++ nl)%string) /\
  (forall e, rng <> Some false -> read_document lang_check dig (Some (tool_db u script, classes)) fuel false true d = Raise e ->
     rfc7940_tool lang_check dig mime today desc u script classes get_script scripts fuel rng quiet test d = Raise e).
Proof. exact tool_unread. Qed.
Print Assumptions C80_unread.

Example C80_nontrivial : ascii_digit 10 = false /\ Forall (fun d => w_read d = Ok (Some (w_reads d))) [w_good; w_odd; w_bad; w_range; w_silent; w_unversioned] /\
  w_tool (Some true) true false w_good = Ok ("PASS" ++ nl)%string /\ w_tool (Some true) true false w_odd = Ok ("WARN" ++ nl)%string /\
  w_tool (Some true) true false w_bad = Ok ("FAIL" ++ nl)%string.
Proof. exact (conj eq_refl (conj w_are_read w_verdicts)). Qed.

(** Without a schema, and in test mode, no document passes: the tests that are
    not made count as failed. *)
Theorem C80_all_fail_refuted : forall lang_check dig mime today desc u script classes get_script scripts fuel, dig 10%N = false ->
  forall rng test d out, rng = None \/ test = true ->
  rfc7940_tool lang_check dig mime today desc u script classes get_script scripts fuel rng true test d = Ok out -> out = ("FAIL" ++ nl)%string.
Proof. exact tool_needs_all. Qed.
Print Assumptions C80_all_fail_refuted.
Example C80_all_fail_nontrivial : w_tool None true false w_good = Ok ("FAIL" ++ nl)%string /\ w_tool (Some true) true true w_good = Ok ("FAIL" ++ nl)%string.
Proof. exact w_options. Qed.

(** A document without a language fails. *)
Theorem C80_language_refuted : exists d, (forall t, ~ In (MLanguageE t) (meta_part d)) /\ w_tool (Some true) true false d = Ok ("FAIL" ++ nl)%string.
Proof. exact (ex_intro _ w_silent (conj w_silent_has_none w_no_language)). Qed.
Print Assumptions C80_language_refuted.

(** A code point that IDNA does not allow passes in a range. *)
Theorem C80_range_refuted : exists d f l a vs x, In (DRange f l a vs) (dc_data d) /\ parse_cp f = Ok x /\ ~ idna_ok w_ucd x /\
  w_tool (Some true) true false d = Ok ("PASS" ++ nl)%string /\ lookup (lg_rep (ld_lgr (w_reads d))) [x] = None.
Proof. exact w_range_shown. Qed.
Print Assumptions C80_range_refuted.

(** An empty <version> stops the tool. *)
Theorem C80_version_refuted : exists d x, w_read d = Ok (Some x) /\ w_tool (Some true) true false d = Raise TypeError.
Proof. exact w_version_shown. Qed.
Print Assumptions C80_version_refuted.
