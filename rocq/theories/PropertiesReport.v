(** C64: what reading an XML document reports.  Statements only.  [lang_check]
    is the check of language tags, [dig] the digits of the regex engine. *)
From Verif Require Import Base UtilsModel LgrModel Rfc7940Model MetaModel MetaSpec SerialModel ReportSpec ReportProofs ReportWitness.
Open Scope string_scope.
Open Scope list_scope.

(** Each result after a document was read says what its name says. *)
Theorem C64_results : forall lang_check dig, dig 46 = false -> forall db allow force x m g,
  parse_document lang_check dig db allow force x = (Some (m, g), Ok tt) ->
  exists cs, chars_of (x_data x) cs /\ let r := md_checks m in
    tells r "explicit_unicode_version" (exists t, In (MUnicodeE t) (x_meta x)) /\
    tells r "char_ascending_order" (forall a b, follows a b ([] :: cs) -> before a b \/ begins b a) /\
    tells r "char_strict_ascending_order" (forall a b, follows a b ([] :: cs) -> ~ begins b a) /\
    (dget String.eqb "valid_unicode_version" r = Some false <-> exists v, In (MUnicodeE (Some v)) (x_meta x) /\ ~ starts_with_version dig v) /\
    dget String.eqb "valid_unicode_version" r <> Some true /\
    (dget String.eqb "metadata_language" r = None <-> forall t, ~ In (MLanguageE t) (x_meta x)) /\
    (dget String.eqb "metadata_language" r = Some false <-> exists t, In (MLanguageE t) (x_meta x) /\ lang_check (value_of t) <> Some true) /\
    dget String.eqb "codepoint_valid" r <> Some true /\
    tells r "parse_xml" (~ In MOtherE (x_meta x) /\ dget String.eqb "codepoint_valid" r = None) /\
    (force = false -> dget String.eqb "codepoint_valid" r = None).
Proof. exact document_reports. Qed.
Print Assumptions C64_results.
(** Both tests of order pass exactly when the <char> elements are sorted,
    without repetition. *)
Theorem C64_sorted : forall lang_check dig, dig 46 = false -> forall db allow force x m g,
  parse_document lang_check dig db allow force x = (Some (m, g), Ok tt) ->
  exists cs, chars_of (x_data x) cs /\
    ((dget String.eqb "char_ascending_order" (md_checks m) = Some true /\ dget String.eqb "char_strict_ascending_order" (md_checks m) = Some true) <->
     forall a b, follows a b ([] :: cs) -> before a b).
Proof. exact sorted_reports. Qed.
Print Assumptions C64_sorted.
Example C64_nontrivial : ascii_digit 46 = false /\ reading true sample_doc =
  (Some [("metadata_language", true); ("parse_xml", false); ("explicit_unicode_version", false);
         ("char_strict_ascending_order", false); ("codepoint_valid", false); ("char_ascending_order", false)], Ok tt).
Proof. exact (conj eq_refl sample_reading). Qed.
(** Ranges are not looked at. *)
Theorem C64_ranges_refuted : exists x m g, parse_document two_letters ascii_digit None true false x = (Some (m, g), Ok tt) /\
  dget String.eqb "char_ascending_order" (md_checks m) = Some true /\
  dget String.eqb "char_strict_ascending_order" (md_checks m) = Some true /\
  x_data x = [DRange (txt "0070") (txt "0075") bare_attrs []; DChar (txt "0041") bare_attrs []; DRange (txt "0061") (txt "0063") bare_attrs []].
Proof. exact (ex_intro _ unordered_ranges (let '(ex_intro _ m (ex_intro _ g (conj a (conj b c)))) := ranges_unseen in ex_intro _ m (ex_intro _ g (conj a (conj b (conj c eq_refl)))))). Qed.
Print Assumptions C64_ranges_refuted.
