(** C33 and C47: writing an LGR to XML and reading it back; tolerant reading. *)
From Verif Require Import Base UtilsModel CharModel RepSpec RefModel LgrModel LgrSpec Rfc7940Model ValidateModel MetaModel MetaSpec CompareSpec
  ValidateFinal SerialModel SerialSpec SerialFinal SerialTolerant SerialWitness.
Open Scope string_scope.
Open Scope list_scope.

(** C33: whatever LGR was built without force and with whole ranges, what is
    written is read back, without force, as an LGR with the same metadata, the
    same entries with the same variants, and the same references. *)
Theorem C33_roundtrip_partial : forall lang_check dig, dig 46 = false -> forall m g db allow,
  meta_writable lang_check dig m -> comments_writable (lg_refs g) ->
  proper g -> tags_writable g -> ~ defined_ref g "" -> admits db allow g ->
  exists m' g', parse_document lang_check dig db allow false (serialize_lgr m g) = (Some (m', g'), Ok tt) /\
    same_metadata m m' /\ same_repertoire g g' /\ rm_refs (lg_refs g') = rm_refs (lg_refs g) /\
    lg_db g' = db /\ lg_raise g' = negb allow /\ proper g' /\ tag_tidy g'.
Proof. exact document_roundtrip. Qed.
Print Assumptions C33_roundtrip_partial.
(** The database with which the LGR was built is always good enough. *)
Theorem C33_own_database : forall g, lgr_reachable g -> admits (lg_db g) (negb (lg_raise g)) g.
Proof. exact own_admits. Qed.
Print Assumptions C33_own_database.
(** The tag classes of the LGR read back are those of the tags written. *)
Theorem C33_tag_classes_partial : forall lang_check dig, dig 46 = false -> forall m g db allow, meta_writable lang_check dig m ->
  comments_writable (lg_refs g) -> proper g -> tags_writable g -> ~ defined_ref g "" -> admits db allow g ->
  exists m' g', parse_document lang_check dig db allow false (serialize_lgr m g) = (Some (m', g'), Ok tt) /\
    forall t x, in_tag_class g' t x <-> carries g t x.
Proof. exact tags_roundtrip. Qed.
Print Assumptions C33_tag_classes_partial.
(** Nor does the reader complain about the order, if no two sequences start
    with the same code point. *)
Theorem C33_order_partial : forall g db allow R r, proper g -> tags_writable g -> ~ defined_ref g "" -> admits db allow g -> starts_once g ->
  rm_refs R = rm_refs (lg_refs g) -> proper (set_refs (new_lgr db allow) R) -> tag_tidy (set_refs (new_lgr db allow) R) ->
  exists g', process_data false (set_refs (new_lgr db allow) R) r (serialize_data g) =
      (g', report_tested (report_tested r "char_ascending_order") "char_strict_ascending_order", Ok tt).
Proof. exact order_roundtrip. Qed.
Print Assumptions C33_order_partial.

Example C33_sample : proper s_lgr /\ tags_writable s_lgr /\ comments_writable (lg_refs s_lgr) /\ ~ defined_ref s_lgr "" /\ admits None true s_lgr /\
  ascii_digit 46 = false /\ is_ok (reread s_meta s_lgr) = true /\
  map ch_cp (rep_iter (lg_rep (snd (outcome (reread s_meta s_lgr))))) = [[97]; [97; 98; 99]; [98]; [200]].
Proof.
  split; [exact s_proper|]. split; [exact s_tags|]. split; [exact s_comments|]. split; [intro H; apply H; vm_compute; reflexivity|].
  split; [left; reflexivity|]. split; [reflexivity|]. split; vm_compute; reflexivity.
Qed.
Example C33_sample_metadata : md_languages (fst (outcome (reread s_meta s_lgr))) = [txt "fr"; txt "de"] /\
  md_description (fst (outcome (reread s_meta s_lgr))) = md_description s_meta.
Proof. vm_compute. split; reflexivity. Qed.
Example C33_sample_meta_ok : meta_writable every_lang ascii_digit s_meta.
Proof.
  split; [intros s H; injection H as H; subst s; exists (mkDay 2020 2 3); split; [split; [cbn [d_year]; lia|cbn [d_year d_month d_day]; apply Day_feb; lia]|reflexivity]|].
  split; [intros s H; injection H as H; subst s; exists (mkDay 2021 1 1); split; [split; [cbn [d_year]; lia|cbn [d_year d_month d_day]; apply Day_31; [left; reflexivity|lia]]|reflexivity]|].
  split; [intros s H; discriminate|]. split.
  - eexists. split; [reflexivity|]. exists [54], [51], [48], []. unfold digit_run. repeat split; try discriminate; repeat constructor.
  - split; [cbn; repeat constructor; cbn; intuition discriminate|]. split; [reflexivity|].
    intros d Hd. injection Hd as Hd. subst d. cbn. split; [left; discriminate|]. intuition discriminate.
Qed.

(** What the conditions exclude does go wrong. *)
Theorem C33_tag_with_space_refuted : exists m g m' g' ch ch', proper g /\ reread m g = (Some (m', g'), Ok tt) /\
  lookup (lg_rep g) [97] = Some ch /\ lookup (lg_rep g') [97] = Some ch' /\ ch_tags ch = ["a b"] /\ ch_tags ch' = ["a"; "b"].
Proof. exact tag_with_space. Qed.
Print Assumptions C33_tag_with_space_refuted.
Theorem C33_deleted_member_refuted : exists m g m' g', lgr_reachable g /\ reread m g = (Some (m', g'), Ok tt) /\ ~ present g [2] /\ present g' [2].
Proof. exact deleted_member_returns. Qed.
Print Assumptions C33_deleted_member_refuted.
Theorem C33_own_output_rejected_refuted : exists ops m, unforced_ops ops /\ (forall e, ~ In (LExn e) (snd (lgr_run (new_lgr None true) ops))) /\
  exists p e, reread m (lgr_of ops) = (p, Raise e) /\ is_lgr_exception e = true.
Proof. exact own_output_rejected. Qed.
Print Assumptions C33_own_output_rejected_refuted.
Theorem C33_forced_content_refuted : exists g m p, lgr_reachable g /\ reread m g = (p, Raise (LGRFormatException DUPLICATE_TAG)).
Proof. exact forced_not_reread. Qed.
Print Assumptions C33_forced_content_refuted.
Theorem C33_empty_comment_refuted : exists m g m' g' r r', proper g /\ reread m g = (Some (m', g'), Ok tt) /\
  dget String.eqb "0" (rm_refs (lg_refs g)) = Some r /\ dget String.eqb "0" (rm_refs (lg_refs g')) = Some r' /\
  ref_comment r = Some "" /\ ref_comment r' = None.
Proof. exact empty_comment_lost. Qed.
Print Assumptions C33_empty_comment_refuted.
Theorem C33_empty_id_refuted : exists m g m' g', proper g /\ reread m g = (Some (m', g'), Ok tt) /\
  defined_ref g "" /\ defined_ref g' "" /\ cited g "" /\ ~ cited g' "".
Proof. exact empty_id_citation_lost. Qed.
Print Assumptions C33_empty_id_refuted.
Theorem C33_line_ends_refuted : exists m g m' g', proper g /\ reread m g = (Some (m', g'), Ok tt) /\
  md_description m = Some (mkDesc [97; 13; 10; 98] None) /\ md_description m' = Some (mkDesc [97; 10; 98] None).
Proof. exact crlf_changes. Qed.
Print Assumptions C33_line_ends_refuted.
Theorem C33_empty_description_refuted : exists m g, proper g /\ reread m g = (None, Raise TypeError).
Proof. exact empty_description_unreadable. Qed.
Print Assumptions C33_empty_description_refuted.
Theorem C33_order_refuted : exists m g m' g', proper g /\ reread m g = (Some (m', g'), Ok tt) /\
  dget String.eqb "char_ascending_order" (md_checks m') = Some false /\
  map ch_cp (rep_iter (lg_rep g)) = [[97; 122]; [97; 98; 99]].
Proof. exact own_output_unordered. Qed.
Print Assumptions C33_order_refuted.

(** C47: a tolerant load of readable code points ends normally, or by an
    IndexError, which only ranges can cause; every acceptable code point of a
    <char> is then in the LGR, and of a <range> too unless the LGR accepts
    invalid code points. *)
Theorem C47_tolerant_load_partial : forall g r l, lgr_reachable g -> (forall e, In e l -> readable e) ->
  let '(g', r', x) := process_data true g r l in
  (x = Ok tt \/ x = Raise IndexError) /\ (existsb is_range_elem l = false -> x = Ok tt) /\
  (forall c, present g c -> present g' c) /\
  (x = Ok tt -> forall e c, In e l -> stands_for e c -> acceptable g c ->
     is_range_elem e = false \/ lg_raise g = true \/ lg_db g = None -> present g' c).
Proof. exact tolerant_load. Qed.
Print Assumptions C47_tolerant_load_partial.
Example C47_sample : (forall e, In e tol_elems -> readable e) /\
  let '(g, r, x) := process_data true (new_lgr None true) [] tol_elems in
  x = Ok tt /\ dget String.eqb "parse_xml" r = Some false /\ map ch_cp (rep_iter (lg_rep g)) = [[97]; [99]; [200]; [206]].
Proof. split; [exact tol_readable|exact tol_result]. Qed.
(** A repeated range aborts the load in spite of force. *)
Theorem C47_repeated_range_refuted : exists l, (forall e, In e l -> readable e) /\
  exists g r, process_data true (new_lgr None true) [] l = (g, r, Raise IndexError) /\
    exists c e, In e l /\ stands_for e c /\ acceptable (new_lgr None true) c /\ ~ present g c.
Proof. exact duplicate_range_aborts. Qed.
Print Assumptions C47_repeated_range_refuted.
(** A range with one invalid code point that is already present is cut there. *)
Theorem C47_cut_range_refuted : exists d l g' r', (forall e, In e l -> readable e) /\
  process_data true (new_lgr (Some d) true) [] l = (g', r', Ok tt) /\
  exists c e, In e l /\ stands_for e c /\ acceptable (new_lgr (Some d) true) c /\ ~ present g' c.
Proof. exact overlapping_range_cut. Qed.
Print Assumptions C47_cut_range_refuted.
