(** C65 and C66: comparing LGRs and sets of LGRs. *)
From Verif Require Import Base CharModel RepSpec UtilsModel RefModel ActionModel LgrModel LgrSpec LgrInv LgrFinal MetaModel CompareModel CompareSpec CompareWitness DiffModel DiffSpec DiffProofs DiffSets DiffWitness.
Open Scope string_scope.
Open Scope list_scope.

(** C65: the report of a comparison says what its specification [reports]
    says, and the LGRs compared keep their contents. *)
Theorem C65_report : forall order, any_order order -> forall show_same d1 d2, tidy (doc_lgr d1) -> tidy (doc_lgr d2) ->
  exists d1' d2' r, diff_lgrs order show_same d1 d2 = (d1', d2', Ok r) /\ reports show_same d1 d2 r /\
    same_doc d1 d1' /\ same_doc d2 d2' /\ tidy (doc_lgr d1') /\ tidy (doc_lgr d2').
Proof. exact diff_report. Qed.
Print Assumptions C65_report.
Example C65_report_ex : any_order turned_order /\ tidy (doc_lgr doc_a) /\ tidy (doc_lgr doc_b) /\
  option_map ld_repertoire (report_of (diff_lgrs plain_order false doc_a doc_b)) = Some (SDiffer [[2]; [20]; [21]] [[3]; [24]]) /\
  option_map ld_identical (report_of (diff_lgrs plain_order false doc_a doc_b)) = Some (Some 1%nat).
Proof. split; [exact turned_any|]. split; [exact a_tidy|]. split; [exact b_tidy|]. split; vm_compute; reflexivity. Qed.

(** C65: comparing an LGR with itself says nothing but what it lacks. *)
Theorem C65_same : forall d r, reports false d d r ->
  ld_references r = SNothing /\ ld_repertoire r = SNothing /\ ld_common r = [] /\ ld_actions r = SNothing /\ ld_rules r = SNothing /\ ld_classes r = SNothing /\
  (ld_metadata r = None <-> md_version (doc_meta d) <> None /\ md_description (doc_meta d) <> None).
Proof. exact same_report. Qed.
Print Assumptions C65_same.
Example C65_same_ex : report_of (diff_lgrs plain_order false doc_c doc_c) = Some (quiet_report (Some 2%nat)).
Proof. vm_compute. reflexivity. Qed.

(** C65, refuted: an LGR without a version or a description is said to differ
    from itself. *)
Theorem C65_silent_refuted : exists d, tidy (doc_lgr d) /\ exists r m, report_of (diff_lgrs plain_order false d d) = Some r /\ ld_metadata r = Some m.
Proof. exact not_silent. Qed.
Print Assumptions C65_silent_refuted.
(** C65, refuted: entries with other contextual rules or citations count as
    identical. *)
Theorem C65_contexts_refuted : exists d1 d2 a b, tidy (doc_lgr d1) /\ tidy (doc_lgr d2) /\ in_both d1 d2 [1] a b /\ ch_when a <> ch_when b /\ ch_refs a <> ch_refs b /\
  report_of (diff_lgrs plain_order false d1 d2) = Some (quiet_report (Some 2%nat)).
Proof. exact blind_contexts. Qed.
Print Assumptions C65_contexts_refuted.
(** C65, refuted: other actions with the same dispositions and other rules
    under the same names go unseen. *)
Theorem C65_actions_refuted : exists d1 d2, tidy (doc_lgr d1) /\ tidy (doc_lgr d2) /\ doc_actions d1 <> doc_actions d2 /\ doc_rules d1 = doc_rules d2 /\ doc_rules_xml d1 <> doc_rules_xml d2 /\
  report_of (diff_lgrs plain_order false d1 d2) = Some (quiet_report (Some 2%nat)).
Proof. exact blind_actions. Qed.
Print Assumptions C65_actions_refuted.
(** C65, refuted: a comparison does not leave its arguments as they were. *)
Theorem C65_arguments_refuted : exists d1 d2 a a', tidy (doc_lgr d1) /\ tidy (doc_lgr d2) /\
  entry_of d1 [20] = Some a /\ entry_of (fst (after (diff_lgrs plain_order false d1 d2))) [20] = Some a' /\ ch_kind a = KRange 20 23 /\ ch_kind a' = KChar.
Proof. exact splits_ranges. Qed.
Print Assumptions C65_arguments_refuted.

(** C66: the comparison of two sets of LGRs. *)
Theorem C66_sets : forall order, any_order order -> forall show_same m1 m2 s1 s2, (forall d, In d s1 \/ In d s2 -> tidy (doc_lgr d)) ->
  exists r, diff_lgr_sets order show_same m1 m2 s1 s2 = Ok r /\
    (forall s, In s (sd_again1 r) <-> exists l, with_script s s1 l /\ (2 <= length l)%nat) /\
    (forall s, In s (sd_again2 r) <-> exists l, with_script s s2 l /\ (2 <= length l)%nat) /\
    lacking s1 s2 (sd_only1 r) /\ lacking s2 s1 (sd_only2 r) /\
    metadata_report false (doc_meta m1) (doc_meta m2) (sd_metadata r) /\
    NoDup (map fst (sd_scripts r)) /\ (forall s, In s (map fst (sd_scripts r)) <-> has_script s1 s /\ has_script s2 s) /\
    (forall s out, In (s, out) (sd_scripts r) -> exists l1 l2, with_script s s1 l1 /\ with_script s s2 l2 /\ compared show_same l1 l2 out).
Proof. exact sets_diff_report. Qed.
Print Assumptions C66_sets.
Example C66_sets_ex : forall d, In d [doc_a; doc_c; doc_e] \/ In d [doc_b; doc_d] -> tidy (doc_lgr d).
Proof. exact sample_sets_tidy. Qed.
Example C66_sets_ex2 : exists r, diff_lgr_sets plain_order false doc_a doc_b [doc_a; doc_c; doc_e] [doc_b; doc_d] = Ok r /\ map (fun x => length (snd x)) (sd_scripts r) = [4%nat] /\ sd_again1 r = [txt "fr"].
Proof. eexists. split; [vm_compute; reflexivity|split; vm_compute; reflexivity]. Qed.
(** C66, refuted: an LGR of a set without a language is passed over. *)
Theorem C66_all_refuted : exists m s1 s2 d, (forall x, In x s1 \/ In x (d :: s1) \/ In x s2 -> tidy (doc_lgr x)) /\ ~ In d s1 /\
  diff_lgr_sets plain_order false m m (d :: s1) s2 = diff_lgr_sets plain_order false m m s1 s2.
Proof. exact skipped. Qed.
Print Assumptions C66_all_refuted.
