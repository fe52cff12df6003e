(** Property theorems about the IDN table review (C41, C49-C53).  Statements only.

    [order] is the order in which the elements of a set come; unless it is fixed
    in the statement the theorems hold for any. *)
From Coq Require Import Permutation Sorted.
From Verif Require Import Base CharModel RepSpec RepProofs VarSetSpec ActionModel LgrModel LgrSpec LgrReach LabelSpec CompareModel CompareSpec ValidateFinal.
From Verif Require Import ReviewModel ReviewSpec ReviewSummary ReviewRepertoire ReviewSets ReviewVariants ReviewSelf ReviewRules ReviewPairing ReviewWitness.
Open Scope string_scope.
Open Scope list_scope.

(** * C41: the summary *)
(** The overall result is the worst one. *)
Theorem C41_overall : forall l, exists o rows, handle_report (named l) = Ok (result_name o, rows) /\ worst l o.
Proof. exact summary_overall. Qed.
Print Assumptions C41_overall.
(** "The worst" is a single result, so adding, removing or reordering reports has
    no other effect. *)
Theorem C41_worst_unique : forall l a b, worst l a -> worst l b -> a = b.
Proof. exact worst_unique. Qed.
Print Assumptions C41_worst_unique.
(** One row per remark, with the number of reports that made it and the result
    of the last of them. *)
Theorem C41_rows : forall l o rows, handle_report (named l) = Ok (o, rows) ->
  NoDup (dkeys rows) /\ (forall m, In m (dkeys rows) <-> exists r, In (r, m) l) /\
  (forall m s n, In (m, (s, n)) rows -> n = times m l /\ exists r, s = result_name r /\ last_with m l r).
Proof. exact summary_exact. Qed.
Print Assumptions C41_rows.
(** No report is lost or counted twice. *)
Theorem C41_total : forall l o rows, handle_report (named l) = Ok (o, rows) -> total rows = List.length l.
Proof. exact summary_total. Qed.
Print Assumptions C41_total.
(** When a remark always goes with the same result, the rows show it, and some
    row shows the overall result. *)
Theorem C41_rows_consistent : forall l o rows, consistent l -> handle_report (named l) = Ok (o, rows) ->
  (forall m s n r, In (m, (s, n)) rows -> In (r, m) l -> s = result_name r) /\ (l <> [] -> exists m n, In (m, (o, n)) rows).
Proof. exact summary_consistent. Qed.
Print Assumptions C41_rows_consistent.
Theorem C41_any_order : forall l l' o rows o' rows', Permutation l l' ->
  handle_report (named l) = Ok (o, rows) -> handle_report (named l') = Ok (o', rows') ->
  o = o' /\ forall m, option_map snd (dget String.eqb m rows) = option_map snd (dget String.eqb m rows').
Proof. exact summary_any_order. Qed.
Print Assumptions C41_any_order.
(** A result that is not one of the five stops the summary. *)
Theorem C41_unknown : forall l1 l2 s m, (forall r, result_of s <> Ok r) -> exists e, handle_report (named l1 ++ (s, m) :: l2) = Raise e.
Proof. exact summary_unknown. Qed.
Print Assumptions C41_unknown.
(** In general the overall result need not be that of any row. *)
Theorem C41_rows_refuted : exists l o rows, handle_report (named l) = Ok (o, rows) /\ forall m n, ~ In (m, (o, n)) rows.
Proof. exact summary_mixed_remark. Qed.
Print Assumptions C41_rows_refuted.
Example C41_witness : handle_report (named [(RNote, "a"); (RManual, "b"); (RNote, "a"); (RSubset, "c")]) =
  Ok ("MANUAL CHECK", [("a", ("NOTE", 2%nat)); ("b", ("MANUAL CHECK", 1%nat)); ("c", ("SUBSET", 1%nat))]).
Proof. vm_compute. reflexivity. Qed.

(** * C49: the repertoire *)
(** One line for each code point or sequence of either LGR, in order. *)
Theorem C49_lines : forall order idn ref, lgr_reachable idn -> lgr_reachable ref ->
  let l := map cl_cp (repertoire_report order (lg_rep idn) (lg_rep ref)) in
  StronglySorted (fun a b => cps_leb a b = true) l /\ NoDup l /\
  (forall c, In c l <-> lookup (lg_rep idn) c <> None \/ lookup (lg_rep ref) c <> None).
Proof. exact (fun order idn ref Hi Hr => repertoire_lines order _ _ (lgr_reachable_wf _ Hi) (lgr_reachable_wf _ Hr)). Qed.
Print Assumptions C49_lines.
(** REVIEW exactly when something the reference requires is missing, NOTE when
    there is only something in excess, MATCH when neither. *)
Theorem C49_results : forall order idn ref l, any_order order -> lgr_reachable idn -> lgr_reachable ref -> In l (repertoire_report order (lg_rep idn) (lg_rep ref)) ->
  match lookup (lg_rep idn) (cl_cp l), lookup (lg_rep ref) (cl_cp l) with
  | None, _ => cl_result l = RSubset
  | Some _, None => cl_result l = RManual
  | Some i, Some r =>
      (cl_result l = RReview <-> violates i r) /\ (cl_result l = RNote <-> exceeds i r /\ ~ violates i r) /\
      (cl_result l = RMatch <-> ~ violates i r /\ ~ exceeds i r)
  end.
Proof. exact (fun order idn ref l Ho Hi Hr => repertoire_results order _ _ l Ho (lgr_reachable_wf _ Hi) (lgr_reachable_wf _ Hr)). Qed.
Print Assumptions C49_results.
(** A match means the same tags, script tags apart, and the same context. *)
Theorem C49_match : forall order idn ref, any_order order ->
  (fst (compare_both order idn ref) = RMatch <->
   (forall t, plain_tag t -> (In t (ch_tags idn) <-> In t (ch_tags ref))) /\ context_of_char idn = context_of_char ref).
Proof. exact match_iff. Qed.
Print Assumptions C49_match.
(** The order of tags has no influence, remarks included. *)
Theorem C49_order : forall o1 o2 idn ref, any_order o1 -> any_order o2 -> repertoire_report o1 idn ref = repertoire_report o2 idn ref.
Proof. exact repertoire_orders. Qed.
Print Assumptions C49_order.
(** Each remark has its result, so that the summary of the repertoire is sound. *)
Theorem C49_summary : forall order idn ref, any_order order ->
  consistent (map (fun l => (cl_result l, cl_remark l)) (repertoire_report order idn ref)).
Proof. exact repertoire_consistent. Qed.
Print Assumptions C49_summary.
(** The code points listed as part of a sequence of the reference. *)
Theorem C49_sequences : forall idn ref c s, lgr_reachable ref ->
  (In (c, s) (cp_in_sequences (lg_rep idn) (lg_rep ref)) <->
   lookup (lg_rep ref) s <> None /\ (1 < List.length s)%nat /\ In c s /\ lookup (lg_rep ref) [c] = None /\ lookup (lg_rep idn) [c] <> None).
Proof. exact (fun idn ref c s Hr => in_sequences_wf _ _ c s (lgr_reachable_wf _ Hr)). Qed.
Print Assumptions C49_sequences.
Example C49_witness :
  map (fun l => (cl_cp l, cl_result l))
    (repertoire_report as_is (rep_of [lcp [1]; lcp [2]; LAddCp [3] None [] ["t"] None None None false false; lcpc [4] (Some "w") None; lcp [6]])
                     (rep_of [lcp [1]; LAddCp [2] None [] ["t"] None None None false false; lcp [3]; lcpc [4] None (Some "w"); lcp [5; 6]]))
  = [([1], RMatch); ([2], RReview); ([3], RNote); ([4], RReview); ([5; 6], RSubset); ([6], RManual)]%N.
Proof. vm_compute. reflexivity. Qed.

(** * C50: classes and actions *)
(** When the members are among the code points of their LGR a class always gets
    a result, except one with no member in either LGR's code points. *)
Theorem C50_class : forall idn ref ir rr, incl idn ir -> incl ref rr ->
  (idn = [] /\ (forall x, In x ref -> ~ In x ir) /\ class_report idn ref ir rr = Ok None) \/
  exists r m, class_report idn ref ir rr = Ok (Some (r, m)) /\ (idn <> [] \/ exists x, In x ref /\ In x ir) /\
    ((r = RMatch /\ same_set idn ref) \/
     (r = RReview /\ idn <> [] /\ ref <> [] /\ disagreement idn ref ir rr) \/
     (r = RSubset /\ idn <> [] /\ ref <> [] /\ ~ disagreement idn ref ir rr /\ incl idn ref /\ ~ same_set idn ref) \/
     (r = RManual /\ ((idn = [] \/ ref = []) /\ ~ same_set idn ref \/ (~ disagreement idn ref ir rr /\ ~ incl idn ref)))).
Proof. exact class_cases. Qed.
Print Assumptions C50_class.
(** The lines on actions. *)
Theorem C50_actions : forall idn ref l, In l (fst (actions_report idn ref)) <->
  (exists k a, nth_error idn k = Some a /\ found a ref /\ l = mkActLine (S k) true true RMatch) \/
  (exists k a, nth_error idn k = Some a /\ ~ found a ref /\ l = mkActLine (S k) true false RManual) \/
  (exists k a, nth_error ref k = Some a /\ ~ found a idn /\ l = mkActLine (S k) false true RManual).
Proof. exact actions_lines. Qed.
Print Assumptions C50_actions.
Theorem C50_each_once : forall idn ref, map al_pos (filter al_idn (fst (actions_report idn ref))) = seq 1 (List.length idn).
Proof. exact actions_positions. Qed.
Print Assumptions C50_each_once.
(** The sequence matches exactly when the common actions come in the same order. *)
Theorem C50_sequence : forall idn ref i r, kept (fun a => found a ref) idn i -> kept (fun a => found a idn) ref r ->
  (snd (actions_report idn ref) = RMatch <-> idn <> [] /\ Forall2 same_action i r).
Proof. exact sequence_iff. Qed.
Print Assumptions C50_sequence.
(** If the report on actions has matches only, both LGRs give every label the same
    disposition. *)
Theorem C50_verdicts : forall rm idn ref label ds only,
  (forall l, In l (fst (actions_report idn ref)) -> al_result l = RMatch) -> snd (actions_report idn ref) = RMatch ->
  fst (apply_actions rm idn label ds only) = fst (apply_actions rm ref label ds only).
Proof. exact matching_verdicts. Qed.
Print Assumptions C50_verdicts.
(** The check of the sequence is needed. *)
Theorem C50_sequence_needed : exists a b, snd (actions_report [a; b] [b; a]) = RManual /\ forall l, In l (fst (actions_report [a; b] [b; a])) -> al_result l = RMatch.
Proof. exact same_order_needed. Qed.
Print Assumptions C50_sequence_needed.
Example C50_class_witness :
  map (fun p => match class_report (fst p) (snd p) [1; 2; 3] [2; 3; 4] with Ok (Some (r, _)) => Some r | _ => None end)
      [([2; 3], [2; 3]); ([2], [2; 4]); ([2], [2; 3]); ([1; 2], [2]); ([], [2]); ([1], []); ([], [4])]%N
  = [Some RMatch; Some RSubset; Some RReview; Some RManual; Some RManual; Some RManual; None].
Proof. vm_compute. reflexivity. Qed.

(** * C51: variants *)
(** One variant on each side, same conditions: MATCH for the same type, NOTE for a
    more conservative one, REVIEW otherwise. *)
Theorem C51_same_context : forall order d idn ref a b x, any_order order -> side d idn = [a] -> side d ref = [b] ->
  vd_fwd idn <> [] -> vd_fwd ref <> [] ->
  variant_context a = variant_context b -> v_type a <> Some "" -> v_type b <> Some "" ->
  exists r m, compared order d idn ref x = Ok (r, m) /\
    ((v_type a = v_type b /\ r = RMatch) \/
     (v_type a <> v_type b /\ (exists s s', v_type a = Some s /\ v_type b = Some s' /\ at_least s s') /\ r = RNote) \/
     (v_type a <> v_type b /\ ~ (exists s s', v_type a = Some s /\ v_type b = Some s' /\ at_least s s') /\ r = RReview)).
Proof. exact same_context_result. Qed.
Print Assumptions C51_same_context.
(** Other conditions are never accepted without a check. *)
Theorem C51_other_context : forall order d idn ref a b x r m, any_order order -> side d idn = [a] -> side d ref = [b] ->
  vd_fwd idn <> [] -> vd_fwd ref <> [] -> variant_context a <> variant_context b ->
  compared order d idn ref x = Ok (r, m) -> r = RManual \/ r = RReview.
Proof. exact other_context_result. Qed.
Print Assumptions C51_other_context.
Theorem C51_accepted : forall order d idn ref a b x r m, any_order order -> side d idn = [a] -> side d ref = [b] ->
  vd_fwd idn <> [] -> vd_fwd ref <> [] -> v_type a <> Some "" -> v_type b <> Some "" ->
  compared order d idn ref x = Ok (r, m) -> r = RMatch \/ r = RSubset \/ r = RNote ->
  variant_context a = variant_context b /\ (v_type a = v_type b \/ exists s s', v_type a = Some s /\ v_type b = Some s' /\ at_least s s').
Proof. exact single_accepted. Qed.
Print Assumptions C51_accepted.
(** A condition the reference does not have is REVIEW; one that only the reference
    has is for a manual check. *)
Theorem C51_added_condition : forall order d idn ref a b x, any_order order -> side d idn = [a] -> side d ref = [b] ->
  vd_fwd idn <> [] -> vd_fwd ref <> [] ->
  truthy (v_when a) = negb (truthy (v_not_when a)) -> variant_context b = (NoContext, NoContext) ->
  exists m, compared order d idn ref x = Ok (RReview, m).
Proof. exact added_condition. Qed.
Print Assumptions C51_added_condition.
Theorem C51_dropped_condition : forall order d idn ref a b x, any_order order -> side d idn = [a] -> side d ref = [b] ->
  vd_fwd idn <> [] -> vd_fwd ref <> [] ->
  variant_context a = (NoContext, NoContext) -> variant_context b <> (NoContext, NoContext) ->
  exists m, compared order d idn ref x = Ok (RManual, m).
Proof. exact dropped_condition. Qed.
Print Assumptions C51_dropped_condition.
(** Pairing the sets of two LGRs: every set comes in exactly one pair, and paired
    sets have the same least member or one contains the other. *)
Theorem C51_pairing : forall I R, family I -> family R ->
  exists ps, pair_sets I R = Ok ps /\ NoDup (map fst ps) /\
    (forall k i r, In (k, (i, r)) ps -> (i = [] \/ In i I) /\ (r = [] \/ In r R) /\ (i <> [] \/ r <> []) /\
       (i <> [] -> r <> [] -> head i = head r \/ incl i r \/ incl r i)) /\
    (forall s, In s I -> exists! p, In p ps /\ fst (snd p) = s) /\
    (forall t, In t R -> exists! p, In p ps /\ snd (snd p) = t) /\
    (forall s t, In s I -> In t R -> head s = head t -> exists k, In (k, (s, t)) ps) /\
    (forall s t, In s I -> In t R -> incl s t -> exists k i, In (k, (i, t)) ps /\ i <> []) /\
    (forall s t, In s I -> In t R -> incl t s -> exists k r, In (k, (s, r)) ps /\ r <> []).
Proof. exact pairing_ok. Qed.
Print Assumptions C51_pairing.
(** Symmetric LGRs have such sets, and the report is produced. *)
Theorem C51_family : forall g sets, lgr_reachable g -> (forall a b, edge (lg_rep g) true a b -> edge (lg_rep g) true b a) ->
  get_variant_sets (lg_rep g) true = Some sets -> family sets.
Proof. exact (fun g sets Hg => sets_family (lg_rep g) sets (lgr_reachable_wf _ Hg)). Qed.
Print Assumptions C51_family.
Theorem C51_report : forall order oc idn ref, lgr_reachable idn -> lgr_reachable ref ->
  (forall a b, edge (lg_rep idn) true a b -> edge (lg_rep idn) true b a) -> (forall a b, edge (lg_rep ref) true a b -> edge (lg_rep ref) true b a) ->
  exists l, variant_sets_report order oc (lg_rep idn) (lg_rep ref) = Ok l.
Proof. exact (fun order oc idn ref Hi Hr => report_produced order oc _ _ (lgr_reachable_wf _ Hi) (lgr_reachable_wf _ Hr)). Qed.
Print Assumptions C51_report.
(** The list of additional code points is every one the reference does not have. *)
Theorem C51_additional : forall idn rr sets, lgr_reachable idn ->
  additional_codepoints (lg_rep idn) rr sets = map ch_cp (filter (fun ch => negb (in_rep rr (ch_cp ch))) (rep_iter (lg_rep idn))).
Proof. exact (fun idn rr sets Hi => additional_is (lg_rep idn) rr sets (lgr_reachable_wf _ Hi)). Qed.
Print Assumptions C51_additional.
Theorem C51_additional_refuted : exists ir rr sets c, get_variant_sets ir true = Some sets /\ (exists s, In s sets /\ In c s) /\ In c (additional_codepoints ir rr sets).
Proof. exact additional_all. Qed.
Print Assumptions C51_additional_refuted.
Theorem C51_second_set_refuted : exists ir rr l s t rows,
  (forall a b, edge ir true a b -> edge ir true b a) /\ (forall a b, edge rr true a b -> edge rr true b a) /\
  get_variant_sets rr true = Some [t] /\ incl s t /\
  variant_sets_report as_is as_is ir rr = Ok l /\ In (s, [], rows) l /\
  exists x, In x rows /\ edge rr true (vr_src x) (vr_dst x) /\ edge ir true (vr_src x) (vr_dst x) /\ vr_fwd x = (RManual, "Variant set only exists in the IDN Table").
Proof. exact second_set_alone. Qed.
Print Assumptions C51_second_set_refuted.
Theorem C51_missing_set_refuted : exists ir rr l s t rows,
  (forall a b, edge ir true a b -> edge ir true b a) /\ (forall a b, edge rr true a b -> edge rr true b a) /\
  get_variant_sets ir true = Some [s] /\ incl t s /\
  variant_sets_report as_is as_is ir rr = Ok l /\ In ([], t, rows) l /\
  exists x, In x rows /\ edge rr true (vr_src x) (vr_dst x) /\ edge ir true (vr_src x) (vr_dst x) /\ vr_fwd x = (RReview, "Variant set exists in the reference LGR").
Proof. exact second_set_missing. Qed.
Print Assumptions C51_missing_set_refuted.
Theorem C51_asymmetric_refuted : exists ir rr e, (forall a b, edge ir true a b -> edge ir true b a) /\ variant_sets_report as_is as_is ir rr = Raise e.
Proof. exact asymmetric_stops. Qed.
Print Assumptions C51_asymmetric_refuted.
Theorem C51_reverse_refuted : exists ir rr l i r rows x, variant_sets_report as_is as_is ir rr = Ok l /\ In (i, r, rows) l /\ In x rows /\
  edge rr true (vr_dst x) (vr_src x) /\ ~ edge ir true (vr_dst x) (vr_src x) /\ row_match x.
Proof. exact missing_reverse. Qed.
Print Assumptions C51_reverse_refuted.
Theorem C51_outside_refuted : exists ir rr l i r rows x, variant_sets_report as_is as_is ir rr = Ok l /\ In (i, r, rows) l /\ In x rows /\
  edge rr true (vr_src x) (vr_dst x) /\ edge ir true (vr_src x) (vr_dst x) /\ vr_fwd x = (RManual, "Variant member exists in IDN Table but not in the reference LGR").
Proof. exact outside_target. Qed.
Print Assumptions C51_outside_refuted.
Theorem C51_order_refuted : exists ir rr i r rows rows' l l',
  variant_sets_report as_is as_is ir rr = Ok l /\ variant_sets_report (@rev variant) as_is ir rr = Ok l' /\
  In (i, r, rows) l /\ In (i, r, rows') l' /\
  (forall x, In x rows -> row_match x) /\ (exists x, In x rows' /\ fst (vr_fwd x) = RReview).
Proof. exact order_matters. Qed.
Print Assumptions C51_order_refuted.
Theorem C51_condition_refuted : exists order idn ref a b, any_order order /\ vd_fwd idn = [a] /\ vd_fwd ref = [b] /\
  variant_context a = (When "w", NoContext) /\ variant_context b = (NoContext, NotWhen "n") /\
  variant_result order false false idn ref Forward true =
  Ok (RManual, "Variant condition rules are mismatched. The IDN Table misses the rule. If the rule is not needed for the proper variant index calculation, then this is ok").
Proof. exact condition_said_missing. Qed.
Print Assumptions C51_condition_refuted.
Example C51_witness : (forall a b, edge ref_three true a b -> edge ref_three true b a) /\ (forall a b, edge idn_two true a b -> edge idn_two true b a) /\
  results (variant_sets_report as_is as_is idn_two ref_three) =
  Some [([[2]; [3]], [[1]; [2]; [3]], [([1], [2], RReview, RReview); ([1], [3], RReview, RReview); ([2], [3], RMatch, RMatch)]);
        ([[4]; [5]], [], [([4], [5], RManual, RManual)])]%N.
Proof. exact sample_symmetric. Qed.
Example C51_order_witness : (forall A, any_order (@as_is A)) /\ forall A, any_order (@rev A).
Proof. split; [exact as_is_order | exact ReviewWitness.rev_order]. Qed.

(** * C52: an LGR reviewed against itself *)
Theorem C52_repertoire : forall order g, any_order order -> lgr_reachable g -> forall l, In l (repertoire_report order (lg_rep g) (lg_rep g)) ->
  cl_result l = RMatch /\ cl_idn l = true /\ cl_ref l = true.
Proof. exact (fun order g Ho Hg => repertoire_self order (lg_rep g) Ho (lgr_reachable_wf _ Hg)). Qed.
Print Assumptions C52_repertoire.
Theorem C52_class : forall m r, incl m r -> class_report m m r r = Ok None /\ m = [] \/ exists x, class_report m m r r = Ok (Some (RMatch, x)) /\ m <> [].
Proof. exact class_self. Qed.
Print Assumptions C52_class.
Theorem C52_actions : forall l, (forall x, In x (fst (actions_report l l)) -> al_result x = RMatch /\ al_idn x = true /\ al_ref x = true) /\
  (l <> [] -> snd (actions_report l l) = RMatch).
Proof. exact actions_self. Qed.
Print Assumptions C52_actions.
(** Whatever its variants, symmetric or not. *)
Theorem C52_variants : forall order oc g, any_order oc -> lgr_reachable g ->
  exists l, variant_sets_report order oc (lg_rep g) (lg_rep g) = Ok l /\ forall i s rows x, In (i, s, rows) l -> In x rows -> row_match x.
Proof. exact (fun order oc g Ho Hg => variants_self order oc (lg_rep g) Ho (lgr_reachable_wf _ Hg)). Qed.
Print Assumptions C52_variants.
Theorem C52_rules_partial : forall g rules l, lgr_reachable g -> no_ranges (lg_rep g) -> one_rule (lg_rep g) -> In l (wle_report (lg_rep g) (lg_rep g) rules rules) -> fst (wl_result l) = RMatch.
Proof. exact (fun g rules l Hg => wle_self (lg_rep g) rules l (lgr_reachable_wf _ Hg)). Qed.
Print Assumptions C52_rules_partial.
Theorem C52_rules_refuted : exists r l, lgr_reachable r /\ In l (wle_report (lg_rep r) (lg_rep r) [("w", "text")] [("w", "text")]) /\ fst (wl_result l) = RManual.
Proof. exact range_rule_self. Qed.
Print Assumptions C52_rules_refuted.
(** Without actions the sequence is not a match. *)
Theorem C52_no_actions_refuted : actions_report [] [] = ([], RManual).
Proof. exact no_actions_sequence. Qed.
Print Assumptions C52_no_actions_refuted.
Example C52_witness : results (variant_sets_report as_is as_is ref_loose ref_loose) =
  Some [([[1]; [3]; [4]], [[1]; [3]; [4]], [([1], [3], RMatch, RMatch); ([1], [4], RMatch, RMatch)]);
        ([[2]; [3]; [4]], [[2]; [3]; [4]], [([2], [3], RMatch, RMatch); ([2], [4], RMatch, RMatch)])]%N /\
  map wl_result (wle_report (rep_of [lcpc [1%N] (Some "w") None]) (rep_of [lcpc [1%N] (Some "w") None]) [("w", "text")] [("w", "text")]) = [(RMatch, "Exact Match (matched names and content)")].
Proof. split; vm_compute; reflexivity. Qed.

(** * C53: rules *)
(** A line per rule name of either LGR. *)
Theorem C53_names : forall ir rr idn ref n, In n (map wl_name (wle_report ir rr idn ref)) <-> In n (dkeys idn) \/ In n (dkeys ref).
Proof. exact wle_names. Qed.
Print Assumptions C53_names.
Theorem C53_once : forall ir rr idn ref, NoDup (map wl_name (wle_report ir rr idn ref)).
Proof. exact wle_NoDup. Qed.
Print Assumptions C53_once.
(** Without ranges, SUBSET exactly when the table does not have the rule, the
    reference uses it, and only for code points the table does not have. *)
Theorem C53_subset_partial : forall i r idn ref l, lgr_reachable i -> no_ranges (lg_rep i) -> lgr_reachable r -> no_ranges (lg_rep r) ->
  In l (wle_report (lg_rep i) (lg_rep r) idn ref) ->
  (fst (wl_result l) = RSubset <->
   dget String.eqb (wl_name l) idn = None /\ (exists c ch, lookup (lg_rep r) c = Some ch /\ ref_rule ch (wl_name l)) /\
   forall c ch, lookup (lg_rep r) c = Some ch -> ref_rule ch (wl_name l) -> lookup (lg_rep i) c = None).
Proof. exact (fun i r idn ref l Hi Ni Hr => wle_subset (lg_rep i) (lg_rep r) idn ref l (lgr_reachable_wf _ Hi) Ni (lgr_reachable_wf _ Hr)). Qed.
Print Assumptions C53_subset_partial.
Theorem C53_subset_refuted : exists ir rr l c ch, lgr_reachable ir /\ lgr_reachable rr /\ In l (wle_report (lg_rep ir) (lg_rep rr) [] [("w", "text")]) /\
  fst (wl_result l) = RSubset /\ lookup (lg_rep rr) c = Some ch /\ ref_rule ch "w" /\ lookup (lg_rep ir) c <> None.
Proof. exact range_hides. Qed.
Print Assumptions C53_subset_refuted.
(** Whether a label is made of the entries of the table: the answer is right,
    and only sequences can stop the check. *)
Theorem C53_label : forall g label, lgr_reachable g -> label <> [] ->
  match check_label_in (lg_rep g) label with
  | Ok b => b = true <-> made_of (lg_rep g) label
  | Raise e => e = IndexError /\ exists ch, entry (lg_rep g) ch /\ is_seq ch = true
  end.
Proof. exact (fun g label Hg => label_answer (lg_rep g) label (lgr_reachable_wf _ Hg)). Qed.
Print Assumptions C53_label.
Theorem C53_label_refuted : exists g label, lgr_reachable g /\ made_of (lg_rep g) label /\ check_label_in (lg_rep g) label = Raise IndexError.
Proof. exact sequence_stops. Qed.
Print Assumptions C53_label_refuted.
Example C53_witness :
  map (check_label_in (rep_of [lcp [1]; lcp [1; 2]; lcp [3]])) [[1; 2; 3]; [1; 3; 1]; [1; 4]; [2]]%N = [Ok true; Ok true; Ok false; Ok false] /\
  map wl_result (wle_report (rep_of [lcp [1%N]]) (rep_of [lcpc [2%N] (Some "w") None]) [] [("w", "text")]) =
  [(RSubset, "Match as a subset (for the rules missing in IDN Table, applicable code points in Ref. LGR are not in IDN Table)")].
Proof. split; vm_compute; reflexivity. Qed.
