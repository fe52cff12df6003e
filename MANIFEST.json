{
 "claims": [
  {
   "property": "C01",
   "status": "proved",
   "theorems": [
    "C01_repertoire_refines_map"
   ],
   "note": "Refinement of every operation history to a finite map."
  },
  {
   "property": "C02",
   "status": "proved",
   "theorems": [
    "C02_failed_edit_changes_nothing"
   ],
   "note": "Every single-entry edit of the LGR that raises or returns false leaves the whole state unchanged."
  },
  {
   "property": "C03",
   "status": "partial",
   "theorems": [
    "C03_lgr_add_range",
    "C03_lgr_add_range_atomic_partial",
    "C03_lgr_add_range_atomic_refuted",
    "C03_lgr_add_range_atomic_idna_refuted",
    "C03_add_range_exact"
   ],
   "note": "Exact effect at repertoire and LGR level; all-or-nothing proved except with an overridden validating repertoire or allowed invalid code points, where it is refuted."
  },
  {
   "property": "C04",
   "status": "partial",
   "theorems": [
    "C04_del_range_partial",
    "C04_del_range_cases_partial",
    "C04_del_range_all_or_nothing_refuted"
   ],
   "note": "Holds while all members are present; atomicity after single deletions is refuted (del_range_not_atomic)."
  },
  {
   "property": "C05",
   "status": "partial",
   "theorems": [
    "C05_overlap_refused_partial",
    "C05_present_code_point_refused",
    "C05_overlap_unchanged_refuted",
    "C05_overlap_refused_refuted"
   ],
   "note": "Detected unless the new range strictly contains the old one; that case is refuted."
  },
  {
   "property": "C06",
   "status": "partial",
   "theorems": [
    "C06_iteration_partial",
    "C06_iteration_accounts_partial",
    "C06_iteration_complete_refuted",
    "C06_listing_filtered"
   ],
   "note": "Order/uniqueness/soundness always; completeness for ranges while intact; refuted for stale ranges."
  },
  {
   "property": "C07",
   "status": "proved",
   "theorems": [
    "C07_collapse_exact",
    "C07_collapse_order_independent",
    "C07_collapse_unique"
   ],
   "note": "Exact multiset, sorted/disjoint/non-adjacent, unique, order independent. The C07 statement about empty input is an IndexError in the code (model: Raise IndexError)."
  },
  {
   "property": "C08",
   "status": "proved",
   "theorems": [
    "C08_add_cp_checks",
    "C08_forced"
   ],
   "note": "First failing check in order decides; otherwise exactly one entry added; what force cannot override."
  },
  {
   "property": "C09",
   "status": "proved",
   "theorems": [
    "C09_check_range",
    "C09_status_unique"
   ],
   "note": "One status per code point, in order, each the unique right one; the validating LGR may itself raise."
  },
  {
   "property": "C10",
   "status": "partial",
   "theorems": [
    "C10_expand_ranges_partial",
    "C10_expand_range_partial",
    "C10_expand_refuted"
   ],
   "note": "Proved for histories that keep ranges whole; refuted after deletion of one member."
  },
  {
   "property": "C11",
   "status": "partial",
   "theorems": [
    "C11_tag_classes_mirror_partial",
    "C11_del_range_refuted",
    "C11_forced_sequence_tag_refuted",
    "C11_forced_duplicate_tag_refuted"
   ],
   "note": "Mirror invariant proved for histories without deletion of tagged ranges or forced sequence/duplicate tags; each excluded case is refuted."
  },
  {
   "property": "C12",
   "status": "proved",
   "theorems": [
    "C12_references_refine",
    "C12_add_never_overwrites",
    "C12_deterministic"
   ],
   "note": "Refinement of every history to a step relation on a finite map with a counter."
  },
  {
   "property": "C13",
   "status": "partial",
   "theorems": [
    "C13_citations_defined",
    "C13_del_reference_partial",
    "C13_forced_duplicate_refuted"
   ],
   "note": "Proved unless a duplicate reference is forced; that case is refuted."
  },
  {
   "property": "C14",
   "status": "proved",
   "theorems": [
    "C14_recorded_result",
    "C14_failure_sticky",
    "C14_verdict",
    "C14_verdict_without_policy",
    "C14_verdict_order_independent",
    "C14_verbose_same_verdict"
   ],
   "note": "Recorded results, verdict with and without policy, order independence, verbose mode."
  },
  {
   "property": "C15",
   "status": "proved",
   "theorems": [
    "C15_first_triggered",
    "C15_later_actions_irrelevant",
    "C15_default_verdict",
    "C15_type_set_semantics"
   ],
   "note": "First trigger over explicit then default actions; rule matching is an arbitrary oracle."
  },
  {
   "property": "C16",
   "status": "proved",
   "theorems": [
    "C16_eligible_is_composed",
    "C16_ineligible_has_reason",
    "C16_eligibility_outcome",
    "C16_longest_match_unique",
    "C16_eligibility_total"
   ],
   "note": "Full outcome of the eligibility test for all histories, labels, rules and actions."
  },
  {
   "property": "C17",
   "status": "partial",
   "theorems": [
    "C17_composed_is_eligible_partial",
    "C17_without_sequences_partial",
    "C17_greedy_refuted"
   ],
   "note": "Proved when an entry applies at every position, and without sequences; refuted in general (greedy longest match)."
  },
  {
   "property": "C18",
   "status": "proved",
   "theorems": [
    "C18_partitions_are_the_cuts"
   ],
   "note": "Exactly the cuts, each once."
  },
  {
   "property": "C19",
   "status": "proved",
   "theorems": [
    "C19_index_is_smallest",
    "C19_index_detects_collisions",
    "C19_index_is_canonical",
    "C19_bound_with_sequences_refuted",
    "C19_collision_without_symmetry_refuted"
   ],
   "note": "Smallest over the partitions; collision detection, idempotence and bound for the class named in the property; the refuted theorems show the class is needed."
  },
  {
   "property": "C20",
   "status": "proved",
   "theorems": [
    "C20_variants_sound",
    "C20_generation_terminates"
   ],
   "note": "With and without mixed-script hiding."
  },
  {
   "property": "C21",
   "status": "partial",
   "theorems": [
    "C21_variants_exact",
    "C21_variants_complete_partial",
    "C21_sequence_without_variants_refuted"
   ],
   "note": "Exact characterisation; complete when every sequence has a variant and no context; refuted otherwise."
  },
  {
   "property": "C22",
   "status": "proved",
   "theorems": [
    "C22_listing",
    "C22_listing_refused"
   ],
   "note": "Full listing, all flags."
  },
  {
   "property": "C23",
   "status": "partial",
   "theorems": [
    "C23_estimate_bounds_partial",
    "C23_estimate_exact_partial",
    "C23_estimate_with_sequences_refuted",
    "C23_estimate_hidden_refuted"
   ],
   "note": "Bound for single code point entries without hiding, exactness for plain variants; refuted with sequences and with hiding."
  },
  {
   "property": "C24",
   "status": "partial",
   "theorems": [
    "C24_symmetry_decided",
    "C24_symmetry_with_rules_decided",
    "C24_symmetry_issues",
    "C24_basic_verdict_recorded",
    "C24_strict_verdict_recorded_partial",
    "C24_strict_untested_recorded_refuted",
    "C24_strict_asymmetric_recorded_refuted"
   ],
   "note": "Both verdicts decided, issues exact, basic_symmetry recorded correctly; strict_symmetry recorded as passed when rules are ignored or symmetry fails (refuted)."
  },
  {
   "property": "C25",
   "status": "partial",
   "theorems": [
    "C25_transitivity_decided",
    "C25_verdict_recorded_partial",
    "C25_failure_not_recorded_refuted"
   ],
   "note": "Verdict and issues exact; a variant outside the repertoire fails the check without being recorded (refuted)."
  },
  {
   "property": "C26",
   "status": "partial",
   "theorems": [
    "C26_symmetric_and_transitive",
    "C26_terminates_and_only_adds",
    "C26_variants_kept_partial",
    "C26_succeeds_partial",
    "C26_complete_lgr_unchanged",
    "C26_idempotent",
    "C26_fixed_points",
    "C26_rules_both_ways",
    "C26_range_target_refuted",
    "C26_mapping_lost_refuted",
    "C26_type_lost_refuted",
    "C26_rules_not_mirrored_refuted"
   ],
   "note": "Result symmetric and transitive, exactly the linked pairs, termination, entries kept, idempotent, and exactly which LGRs are left as they are; success and variant preservation need no range-member targets, single contexts, well-formed references and non-empty rule names (refuted otherwise)."
  },
  {
   "property": "C27",
   "status": "proved",
   "theorems": [
    "C27_variant_sets",
    "C27_variant_sets_disjoint",
    "C27_disjoint_without_symmetry_refuted"
   ],
   "note": "Sets are the reachable sets of size >= 2; pairwise disjoint under symmetry (needed, see the refuted variant)."
  },
  {
   "property": "C28",
   "status": "partial",
   "theorems": [
    "C28_unforced_inputs",
    "C28_union_total",
    "C28_intersection_total",
    "C28_union_codepoints",
    "C28_intersection_codepoints",
    "C28_union_tags",
    "C28_intersection_tags",
    "C28_union_variants_partial",
    "C28_union_variants_refuted",
    "C28_union_first_only_variants_lost",
    "C28_intersection_variants",
    "C28_intersection_types_refuted",
    "C28_union_contexts_partial",
    "C28_union_contexts_refuted",
    "C28_union_comments",
    "C28_intersection_comments",
    "C28_union_actions",
    "C28_union_action_set",
    "C28_union_action_texts_refuted",
    "C28_intersection_action_set",
    "C28_intersection_actions_refuted",
    "C28_union_metadata",
    "C28_intersection_metadata",
    "C28_union_metadata_refuted",
    "C28_intersection_scopes_refuted",
    "C28_union_references",
    "C28_intersection_references",
    "C28_union_rules_partial",
    "C28_union_rules_origin",
    "C28_union_rules_refuted",
    "C28_union_rule_names_refuted",
    "C28_union_rule_text_refuted"
   ],
   "note": "Proved for every enumeration order of Python sets, all inputs edited without force and with whole ranges: union/intersection never fail, only spell out the inputs' ranges, and compute the union/intersection of code points, tags, variant keys, references, languages, validity period; union's actions decide every label like the concatenation. Refuted: variants of first-only code points lost, contexts of common code points lost, types lost by intersection, action order lost by intersection, second's scopes/version/description lost, renamed rules leave dangling references, may collide, and have corrupted text."
  },
  {
   "property": "C29",
   "status": "partial",
   "theorems": [
    "C29_hidden_variants_partial",
    "C29_hidden_single_variants_partial",
    "C29_permitted_closure",
    "C29_first_piece_mixes_refuted"
   ],
   "note": "Exact shape; full claim for single code point variants; refuted for multi code point variants at the start."
  },
  {
   "property": "C30",
   "status": "partial",
   "theorems": [
    "C30_classes_compute_set_algebra",
    "C30_outcomes",
    "C30_one_set",
    "C30_within_unicode",
    "C30_validated_classes_evaluate_partial",
    "C30_validated_tables_shaped",
    "C30_validation",
    "C30_add_child_bounds",
    "C30_reference_excludes_the_rest",
    "C30_edited_set",
    "C30_edited_keeps",
    "C30_edit_refused",
    "C30_redefinition_loops_refuted",
    "C30_malformed_property_refuted"
   ],
   "note": "Evaluation coincides with the denotation of the definition (set algebra, complement within the code space); validated and never redefined classes evaluate. Refuted: a class redefined in terms of itself is accepted and never evaluates; malformed properties are accepted and raise ValueError on evaluation."
  },
  {
   "property": "C31",
   "status": "partial",
   "theorems": [
    "C31_cache_transparent_partial",
    "C31_tag_edit_ignored_refuted",
    "C31_rule_edit_ignored_refuted",
    "C31_redefinition_ignored_refuted"
   ],
   "note": "The cache makes no difference while definitions stay (proved for all evaluation histories). Refuted across edits: a tag edit, an added child or a redefined referenced rule leaves the cached pattern in use."
  },
  {
   "property": "C32",
   "status": "partial",
   "theorems": [
    "C32_meaning_partial",
    "C32_answers_are_right_partial",
    "C32_context_rules",
    "C32_validated_rules_resolve",
    "C32_add_rule",
    "C32_empty_class_refuted",
    "C32_empty_choice_refuted",
    "C32_place_holder_refuted",
    "C32_long_look_behind_refuted",
    "C32_redefinition_loops_refuted"
   ],
   "note": "Pattern building, reading and searching proved equivalent to a relational semantics of RFC 7940 rule trees for labels up to 63 code points. Refuted outside of it: empty classes, choices without members, minimal counts above 63 in look-behind, and rules with an anchor evaluated without one on a label that spells its place holder. Validation is an iff with a declarative definition (valid_rule)."
  },
  {
   "property": "C33",
   "status": "partial",
   "theorems": [
    "C33_roundtrip_partial",
    "C33_own_database",
    "C33_tag_classes_partial",
    "C33_order_partial",
    "C33_tag_with_space_refuted",
    "C33_deleted_member_refuted",
    "C33_own_output_rejected_refuted",
    "C33_forced_content_refuted",
    "C33_empty_comment_refuted",
    "C33_empty_id_refuted",
    "C33_line_ends_refuted",
    "C33_empty_description_refuted",
    "C33_order_refuted"
   ],
   "note": "Elements of <meta> and <data> as trees (XML text, rules section not modelled). For LGRs built without force and with whole ranges, valid metadata, tags without blanks: writing then reading gives the same metadata, entries, variants, references, tag classes; no order complaint when no two sequences start alike. Refuted: tag with a blank splits, deleted range member returns, own output rejected by the reader (overlapping ranges after a deletion), forced content, empty reference comment and id, CRLF, empty description, order complaint on own output."
  },
  {
   "property": "C34",
   "status": "partial",
   "theorems": [
    "C34_collisions_exact",
    "C34_search_completes",
    "C34_collisions_are_variants",
    "C34_listings_fit",
    "C34_table_exact",
    "C34_pair_twice_refuted",
    "C34_cached_label_refuted",
    "C34_annotation_partial",
    "C34_annotation_general",
    "C34_annotation_refuted"
   ],
   "note": "Over any index and listing functions: announced pairs are exactly the pairs of distinct labels with the same index (labels and TLDs), missing labels exactly those not in the LGR; for simple LGRs collisions are exactly the variant labels. Annotation against a set is exact when the set is collision-free. Refuted: with three colliding labels a pair is announced in both directions; a label present in the cache collides with itself (or AssertionError); set annotation blames a label for collisions inside the set."
  },
  {
   "property": "C35",
   "status": "partial",
   "theorems": [
    "C35_checks_depend_on_options_partial",
    "C35_checks_accumulate",
    "C35_run_depends_on_history_refuted",
    "C35_all_checks_reported"
   ],
   "note": "The module-level list of checks is extended in place: exact accumulation proved, independence refuted; holds when no earlier call asked for the RFC 7940 checks."
  },
  {
   "property": "C36",
   "status": "partial",
   "theorems": [
    "C36_counts_partial",
    "C36_largest_partial",
    "C36_largest_named_partial",
    "C36_tag_counts_partial",
    "C36_stale_range_counted_refuted"
   ],
   "note": "All counters and maxima and the range and sequence named as largest, for histories that keep ranges whole; refuted after deleting one member of a range. The rounded average is not modelled."
  },
  {
   "property": "C37",
   "status": "partial",
   "theorems": [
    "C37_pooled_and_completed",
    "C37_agree_partial",
    "C37_agree_with_root",
    "C37_root_first",
    "C37_root_in_steps",
    "C37_nothing_removed",
    "C37_only_adds",
    "C37_variants_kept_partial",
    "C37_again_partial",
    "C37_order_irrelevant",
    "C37_succeeds_partial",
    "C37_no_database",
    "C37_disagree_not_transitive_refuted",
    "C37_disagree_not_symmetric_refuted",
    "C37_refuses_refuted",
    "C37_version_unmarked_refuted"
   ],
   "note": "For any iteration order: exact characterisation of both results (own and pooled variants, closed), review sets exact, nothing removed, only blocked/out-of-repertoire variants added, order irrelevant, a second run adds nothing; agreement on common code points proved for symmetric and transitive inputs, and without hypotheses when a root zone LGR is given. Refuted without transitivity, and without symmetry; the copies it works on have no database (any copied LGR loses it), so code points the LGR would refuse are taken over; succeeds whenever the variants have one context and defined references, with or without a root zone LGR; a version with a comment is not marked. LGRs that go through tidy histories (C10) so that ranges expand. Metadata and rules are not modelled here."
  },
  {
   "property": "C38",
   "status": "partial",
   "theorems": [
    "C38_code_points",
    "C38_reference_texts",
    "C38_one_member_partial",
    "C38_tags",
    "C38_variants_from",
    "C38_variants_kept",
    "C38_variant_references",
    "C38_symmetric",
    "C38_disjoint",
    "C38_disjoint_transitive",
    "C38_two_members",
    "C38_one_shared_complete",
    "C38_contexts_partial",
    "C38_different_rules_stop",
    "C38_rules_defined_partial",
    "C38_actions_in_order",
    "C38_any_order",
    "C38_shared_references_refuted",
    "C38_same_script_references_refuted",
    "C38_disjoint_merge_refuted",
    "C38_two_shared_refuted",
    "C38_transitive_refuted",
    "C38_common_rule_refuted",
    "C38_same_rule_refuted",
    "C38_succeeds_partial",
    "C38_nameless_rule_refuted",
    "C38_agreeing_exact",
    "C38_agreeing_targets",
    "C38_conditional_variant_stops",
    "C38_pair_exact",
    "C38_pair_complete",
    "C38_pair_related",
    "C38_in_turn",
    "C38_script_names_refuted"
   ],
   "note": "Code points, tags, reference texts, variants (sound and kept), symmetry, context rules, actions and independence of the order of the members are proved for every set the merge accepts. The references part is refuted for code points two members have (their references are not translated) and for members with the same script; proved for code points of one member and for variants when scripts differ. That the merge succeeds is proved for proper LGRs of different scripts of which one at most gives a shared code point variants or context rules; and, where the variants several members give a shared code point agree, exactly when they ask for the same rules (C38_agreeing_exact); for members without contextual variants it is proved exactly when the merge succeeds and which variants the result has, for two (C38_pair_exact, C38_pair_related) and for any number (C38_in_turn); which they are depends on the names of the scripts (C38_script_names_refuted). Sets where two members give a shared code point the same variant under context rules always do (C38_conditional_variant_stops). Texts of rules and the metadata of the result are the subject of other properties."
  },
  {
   "property": "C39",
   "status": "partial",
   "theorems": [
    "C39_set_date",
    "C39_set_validity_start",
    "C39_set_validity_end",
    "C39_date_outcomes",
    "C39_dates_always_valid",
    "C39_set_languages_partial",
    "C39_languages_always_valid_partial",
    "C39_add_language",
    "C39_languages_given",
    "C39_set_languages_ends",
    "C39_languages_unencodable_refuted",
    "C39_languages_invalid_refuted",
    "C39_forced_date_refuted",
    "C39_unicode_version",
    "C39_unicode_version_form_refuted"
   ],
   "note": "Dates: exact for all texts and all unforced histories. Languages: exact when the tag library can encode every tag; refuted otherwise (the loop removes from the list it iterates, so the next tag is unchecked). Forced dates may raise OverflowError; Unicode versions are checked as a prefix only (both refuted)."
  },
  {
   "property": "C40",
   "status": "proved",
   "theorems": [
    "C40_cp_to_str_roundtrip",
    "C40_cp_attribute_roundtrip",
    "C40_cp_attribute_injective",
    "C40_format_cp_roundtrip",
    "C40_parse_single",
    "C40_string_to_list_roundtrip"
   ],
   "note": "int() modelled on ASCII digits only."
  },
  {
   "property": "C41",
   "status": "proved",
   "theorems": [
    "C41_overall",
    "C41_worst_unique",
    "C41_rows",
    "C41_total",
    "C41_rows_consistent",
    "C41_any_order",
    "C41_unknown",
    "C41_rows_refuted"
   ],
   "note": "The statement is proved for all lists. The overall result is the worst one, rows are exact (one per remark, count, last result), counts add up, order has no influence on them; a remark that goes with several results hides the worse one (refuted in general, proved for consistent reports, which the repertoire report is: C49_summary). The refuted theorem is about a further claim, that some row shows the overall result."
  },
  {
   "property": "C42",
   "status": "proved",
   "theorems": [
    "C42_variants_form_a_set",
    "C42_add_variant",
    "C42_del_variant",
    "C42_range_member_has_no_variant"
   ],
   "note": "Set semantics keyed by (cp, when, not-when), order, exact add/delete, range members refuse variants."
  },
  {
   "property": "C43",
   "status": "partial",
   "theorems": [
    "C43_same_script_kept_partial",
    "C43_common_hides_all_refuted"
   ],
   "note": "Kept when all pieces are in permitted scripts; refuted with Common code points."
  },
  {
   "property": "C44",
   "status": "partial",
   "theorems": [
    "C44_verdict_of_a_derivation_partial",
    "C44_allocatable_suppressed_refuted"
   ],
   "note": "The listed verdict comes from a derivation; refuted that a better derivation survives."
  },
  {
   "property": "C45",
   "status": "proved",
   "theorems": [
    "C45_conditional_variants_checked"
   ],
   "note": ""
  },
  {
   "property": "C46",
   "status": "partial",
   "theorems": [
    "C46_dates_compare",
    "C46_check_metadata",
    "C46_version_newline_refuted"
   ],
   "note": "Exact for metadata whose dates are full dates; a version followed by a line feed is accepted (refuted). Media types, Unicode digits and today are arguments."
  },
  {
   "property": "C47",
   "status": "partial",
   "theorems": [
    "C47_tolerant_load_partial",
    "C47_repeated_range_refuted",
    "C47_cut_range_refuted"
   ],
   "note": "For all readable elements: the load ends normally or by IndexError (ranges only), keeps everything present, and contains every acceptable <char> code point (and range members unless invalid code points are allowed). Refuted: a repeated range raises IndexError through force; a range with one present invalid code point is cut."
  },
  {
   "property": "C48",
   "status": "partial",
   "theorems": [
    "C48_diff_exact",
    "C48_diff_completes",
    "C48_dump_completes",
    "C48_diff_refused_refuted"
   ],
   "note": "Over any index and listing functions that the model's own satisfy: whenever the comparison succeeds, added, removed and changed are exact and cover exactly the labels in both LGRs; success follows when labels sharing an index share their variants; the dump succeeds exactly then. Refuted: comparison can be refused for asymmetric LGRs. Partial: for lists of distinct labels."
  },
  {
   "property": "C49",
   "status": "proved",
   "theorems": [
    "C49_lines",
    "C49_results",
    "C49_match",
    "C49_order",
    "C49_summary",
    "C49_sequences"
   ],
   "note": "Exact for all reachable LGRs and tag orders. Glyphs and names of code points are not modelled."
  },
  {
   "property": "C50",
   "status": "proved",
   "theorems": [
    "C50_class",
    "C50_actions",
    "C50_each_once",
    "C50_sequence",
    "C50_verdicts",
    "C50_sequence_needed"
   ],
   "note": "Class members are those of the LGR restricted to its code points, as the report computes them."
  },
  {
   "property": "C51",
   "status": "partial",
   "theorems": [
    "C51_same_context",
    "C51_other_context",
    "C51_accepted",
    "C51_added_condition",
    "C51_dropped_condition",
    "C51_pairing",
    "C51_family",
    "C51_report",
    "C51_additional",
    "C51_additional_refuted",
    "C51_second_set_refuted",
    "C51_missing_set_refuted",
    "C51_asymmetric_refuted",
    "C51_reverse_refuted",
    "C51_outside_refuted",
    "C51_order_refuted",
    "C51_condition_refuted"
   ],
   "note": "Comparison exact for one variant per direction; pairing of sets proved for disjoint families (those of symmetric LGRs). Refuted: additional code points (variant sets are never excluded), a second set inside a larger one is said to be missing, KeyError for an asymmetric reference, a missing reverse mapping counts as a match, a mapping to a code point outside the table is said not to be in the reference, set order decides with several conditional variants, not-when of the reference is called a missing rule."
  },
  {
   "property": "C52",
   "status": "partial",
   "theorems": [
    "C52_repertoire",
    "C52_class",
    "C52_actions",
    "C52_variants",
    "C52_rules_partial",
    "C52_rules_refuted",
    "C52_no_actions_refuted"
   ],
   "note": "Proved for repertoire, classes, actions and variants of every reachable LGR. Rules: proved without ranges and with one context rule per code point, refuted for a range. Refuted for the sequence of an LGR without actions."
  },
  {
   "property": "C53",
   "status": "partial",
   "theorems": [
    "C53_names",
    "C53_once",
    "C53_subset_partial",
    "C53_subset_refuted",
    "C53_label",
    "C53_label_refuted"
   ],
   "note": "Rules are compared as texts. SUBSET exact without ranges, refuted for a code point inside a range. The label check answers correctly and only stops (IndexError) with sequences: refuted for a label that ends with one. The general rules (combining marks etc.) are C68."
  },
  {
   "property": "C54",
   "status": "proved",
   "theorems": [
    "C54_types_in_use_listed",
    "C54_listed_types_given",
    "C54_only_types_in_use_refuted"
   ],
   "note": "Full statement. Not claimed and refuted: a type stays listed after its last variant is deleted."
  },
  {
   "property": "C55",
   "status": "partial",
   "theorems": [
    "C55_verdict_partial",
    "C55_recorded_partial",
    "C55_range_only_refuted",
    "C55_every_fault_recorded_refuted",
    "C55_no_database_refuted"
   ],
   "note": "Exact verdict and recorded tests for histories that keep ranges whole, with a Unicode database. Refuted: an LGR of ranges only never records the variant type test, so a policy that asks for it fails; a non-standard disposition hides every fault of the data; without a database the check raises."
  },
  {
   "property": "C56",
   "status": "proved",
   "theorems": [
    "C56_report",
    "C56_compliant_count_refuted"
   ],
   "note": "Full statement. Not claimed and refuted: that the number of compliant entries counts only compliant ones (entries declared out of the repertoire are counted too)."
  },
  {
   "property": "C57",
   "status": "partial",
   "theorems": [
    "C57_first_script",
    "C57_han_first",
    "C57_no_script",
    "C57_leading_common_refuted"
   ],
   "note": "Exact for every label. Refuted: a leading common code point changes Japanese (Han then kana) into Han."
  },
  {
   "property": "C58",
   "status": "proved",
   "theorems": [
    "C58_each_line",
    "C58_text_of_line",
    "C58_u_plus_notation",
    "C58_hex_notation",
    "C58_raising"
   ],
   "note": "Full statement. The IDNA decoder (after lower()) is any function. int() is modelled on ASCII digits."
  },
  {
   "property": "C59",
   "status": "partial",
   "theorems": [
    "C59_annotation_partial",
    "C59_first_rule_refuted",
    "C59_set_annotation_partial",
    "C59_set_rule_refuted",
    "C59_set_completes_refuted"
   ],
   "note": "For LGRs reached by API calls whose rules have non-empty names and decoders that give no empty label. The lines are structured, not text. Partial: the first action of the LGR is never shown as the reason (refuted); with a set of labels the rule is taken from the wrong LGR (refuted: another rule shown, or IndexError), so only the rest is claimed, for runs without an exception."
  },
  {
   "property": "C60",
   "status": "partial",
   "theorems": [
    "C60_code_points_of_lines",
    "C60_comment_refuted"
   ],
   "note": "Full for the code points and what they carry. Refuted: a comment at the end of a line is not left out, so its code points join the sequence."
  },
  {
   "property": "C61",
   "status": "partial",
   "theorems": [
    "C61_rows_partial",
    "C61_row_before_refuted",
    "C61_first_row_refuted",
    "C61_blank_refuted",
    "C61_any_file",
    "C61_ending",
    "C61_more_lines"
   ],
   "note": "C61_rows_partial states the property for files where a row whose character cannot be read has no readable variant. C61_any_file says what is read from any file at all, C61_ending how reading ends, C61_more_lines that more lines only add. Refuted: variants of a row whose character cannot be read go to the character of an earlier row, or reading ends on UnboundLocalError; a blank before a variant loses it."
  },
  {
   "property": "C62",
   "status": "partial",
   "theorems": [
    "C62_table_partial",
    "C62_table_force_partial",
    "C62_any_file",
    "C62_more_lines",
    "C62_blank_refuted",
    "C62_two_digits_refuted",
    "C62_adjacent_refuted"
   ],
   "note": "Partial: well-formed files (the shapes of lines in TableSpec), with and without force. For any file at all: C62_any_file (how reading ends, shape of what is kept) and C62_more_lines. Refuted: a blank before ';' sends the variants to an earlier row or ends on UnboundLocalError; references with two digits and their citations are lost; adjacent code points are read as one number."
  },
  {
   "property": "C63",
   "status": "proved",
   "theorems": [
    "C63_first_specific_line",
    "C63_no_separator_refuted"
   ],
   "note": "Full. The refuted theorem is about a further claim: an RFC 3743 table without ';' should not be read as RFC 4290."
  },
  {
   "property": "C64",
   "status": "partial",
   "theorems": [
    "C64_results",
    "C64_sorted",
    "C64_ranges_refuted"
   ],
   "note": "Full for documents whose reading ends normally. Refuted: ranges are left out of the tests of order."
  },
  {
   "property": "C65",
   "status": "partial",
   "theorems": [
    "C65_report",
    "C65_same",
    "C65_silent_refuted",
    "C65_contexts_refuted",
    "C65_actions_refuted",
    "C65_arguments_refuted"
   ],
   "note": "Full for which differences are reported (DiffSpec.reports is the claim) and for LGRs without overlapping ranges. Refuted: an LGR without version or description differs from itself; contextual rules and citations of code points, contents of actions and of rules are not compared; ranges of the arguments are expanded in place."
  },
  {
   "property": "C66",
   "status": "partial",
   "theorems": [
    "C66_sets",
    "C66_all_refuted"
   ],
   "note": "For LGRs that are tidy. Refuted for all: LGRs of a set without a language are passed over silently. The metadata of the merged LGRs are always compared without show_same."
  },
  {
   "property": "C67",
   "status": "partial",
   "theorems": [
    "C67_report",
    "C67_silent",
    "C67_success_refuted",
    "C67_database_refuted",
    "C67_answers_refuted",
    "C67_range_refuted",
    "C67_deleted_refuted"
   ],
   "note": "Proved for LGRs built without force whose ranges are whole, having a Unicode database, and validating repertoires that answer about every code point the target database accepts. Outside of that it is refuted: True is answered whatever is reported; an LGR without database, a repertoire with another database or a range member deleted and added again make it fail; deleted range members are still checked."
  },
  {
   "property": "C68",
   "status": "partial",
   "theorems": [
    "C68_report",
    "C68_one_answer",
    "C68_always",
    "C68_tags",
    "C68_reference_tags",
    "C68_mark_labels",
    "C68_hyphen_labels",
    "C68_digit_labels",
    "C68_mixed_labels",
    "C68_dot_labels",
    "C68_labels_order",
    "C68_hyphen_each",
    "C68_alike",
    "C68_strangers_refuted",
    "C68_additional",
    "C68_repertoire",
    "C68_digit_sets",
    "C68_one_set",
    "C68_two_sets_refuted",
    "C68_arabic_refuted",
    "C68_georgian_refuted",
    "C68_korean_refuted"
   ],
   "note": "Full for the reports; that the code points' texts of properties have no space is assumed of the database. Eligibility of a label is any function. Refuted: two sets of digits with at most ten digits in all are not seen; labels that cannot be spelled hide the verdict of the others (an Arabic table with European digits only); Georgian and Achinese tables are tried with Kannada and Chinese labels; tables tagged und-Kore or und-Hani are tried with no label; sequences can make the check fail (C41)."
  },
  {
   "property": "C69",
   "status": "partial",
   "theorems": [
    "C69_names",
    "C69_always",
    "C69_verdict",
    "C69_self",
    "C69_report",
    "C69_untagged",
    "C69_exact_refuted",
    "C69_symmetric_refuted",
    "C69_three_letters_refuted"
   ],
   "note": "Full, for any registry, for what the code compares. Refuted: tags without language or script count as having the same (two private use tags are an exact match); the verdict is not symmetric; three letter codes are replaced only before a dash."
  },
  {
   "property": "C70",
   "status": "proved",
   "theorems": [
    "C70_scripts",
    "C70_order",
    "C70_invalid",
    "C70_cache",
    "C70_texts"
   ],
   "note": "Full. The cache is shown transparent when lists of languages have different texts, which is proved for languages without quotes, backslashes or unprintable characters. That callers could change a cached list in place is not modelled (none does)."
  },
  {
   "property": "C71",
   "status": "partial",
   "theorems": [
    "C71_order",
    "C71_order_irrelevant",
    "C71_order_changes_little",
    "C71_order_refuted",
    "C71_version",
    "C71_version_refuted",
    "C71_languages",
    "C71_scopes",
    "C71_firsts_unique",
    "C71_start",
    "C71_end",
    "C71_period_refuted",
    "C71_unicode",
    "C71_unicode_refuted",
    "C71_rest",
    "C71_description",
    "C71_description_kept",
    "C71_nothing_said_refuted",
    "C71_read_back"
   ],
   "note": "Full for what the code computes: each part of the result is determined. Refuted: the Unicode version is compared as a text with 6.3.0 (a set of 11.0.0 LGRs merges into 6.3.0); members with the same script merge differently in another order; versions containing a bar are confused; without any version or description an empty one is given; the period can be empty."
  },
  {
   "property": "C72",
   "status": "partial",
   "theorems": [
    "C72_class",
    "C72_count",
    "C72_rule",
    "C72_rule_readable",
    "C72_rule_report",
    "C72_action",
    "C72_section",
    "C72_section_report",
    "C72_forced",
    "C72_unforced",
    "C72_database",
    "C72_forced_with_database_refuted",
    "C72_unknown_reported_refuted",
    "C72_written",
    "C72_roundtrip",
    "C72_roundtrip_patterns",
    "C72_redefined_refuted",
    "C72_unqualified_refuted"
   ],
   "note": "Full without a database: reading is characterised by an iff for classes, counts, actions and whole sections, and the round trip is unconditional for elements of a namespace. With a database: what is read is what is read without it, plus patterns; the patterns survive writing if no class is redefined. Refuted: with a database a dangling class reference stops even a forced reading; an unknown element inside a class or combination crashes the reader instead of being reported; redefining a class after a rule that uses it changes, by writing and reading, what the rule matches; elements without a namespace, passed over when read, count after writing."
  },
  {
   "property": "C73",
   "status": "partial",
   "theorems": [
    "C73_evaluation_partial",
    "C73_disposition_partial",
    "C73_errors",
    "C73_caches",
    "C73_missing_action",
    "C73_missing_context_refuted",
    "C73_empty_name_refuted"
   ],
   "note": "Evaluation with the LGR's own rules (lookup, cached patterns, errors) equals the evaluation of C16-C23 with an oracle that gives RFC 7940's verdicts, for rules within what RFC 7940 gives a meaning to (as C32). Errors and caches: full. Refuted: a name without a rule is a KeyError at evaluation, for the labels that need it; a rule with the empty name is accepted, and a label refused by it is a TypeError."
  },
  {
   "property": "C74",
   "status": "proved",
   "theorems": [
    "C74_summary"
   ],
   "note": "Full."
  },
  {
   "property": "C75",
   "status": "partial",
   "theorems": [
    "C75_answers_partial",
    "C75_expanding",
    "C75_written",
    "C75_order_of_variants_refuted"
   ],
   "note": "Full for entries whose variants come in the same order; refuted when two variants with the same target were added in another order (the first one decides the disposition of the variant label)."
  },
  {
   "property": "C76",
   "status": "partial",
   "theorems": [
    "C76_ready",
    "C76_evaluation_partial",
    "C76_disposition_partial",
    "C76_redefined_refuted",
    "C76_without_meta_refuted"
   ],
   "note": "Readiness is full (C76_ready); verdicts are for rules RFC 7940 gives a meaning to, as in C32 and C73. Refuted for names given twice and for documents without <meta>, which the schema allows."
  },
  {
   "property": "C77",
   "status": "partial",
   "theorems": [
    "C77_again",
    "C77_labels_partial",
    "C77_empty_description_refuted",
    "C77_carriage_return_refuted"
   ],
   "note": "C77_again is for documents without carriage returns in the description, empty plain-text descriptions, empty reference identifiers or comments, elements of <rules> in no namespace and (with a database) repeated names; refuted for the first two. Answers to labels are for rules RFC 7940 gives a meaning to, as in C73."
  },
  {
   "property": "C78",
   "status": "partial",
   "theorems": [
    "C78_same",
    "C78_readable",
    "C78_read_with",
    "C78_labels_partial",
    "C78_evaluates_partial",
    "C78_unchecked_refuted",
    "C78_forced_refuted"
   ],
   "note": "For reading without force (refuted with force: code points the database refuses are skipped). Answers to labels are for documents that do not define a name twice and rules RFC 7940 gives a meaning to, as in C73. A database set later is not checked against the code points there (C78_unchecked_refuted)."
  },
  {
   "property": "C79",
   "status": "partial",
   "theorems": [
    "C79_reading",
    "C79_left_out",
    "C79_collisions",
    "C79_pairs_sound",
    "C79_pairs_complete",
    "C79_none",
    "C79_dump",
    "C79_counts",
    "C79_completes",
    "C79_dump_completes",
    "C79_dump_pairs_refuted",
    "C79_dump_stops_refuted",
    "C79_tld_refuted"
   ],
   "note": "With the dump, variants are also shown below an index, so that labels with different indexes are announced if one is a variant of the other one only (C79_dump_pairs_refuted); the theorems say exactly what is announced then. A pair may be announced twice (C34_pair_twice_refuted). How the lines are formatted and the rule logs are not modelled."
  },
  {
   "property": "C80",
   "status": "partial",
   "theorems": [
    "C80_verdict",
    "C80_answers",
    "C80_report",
    "C80_unread",
    "C80_all_fail_refuted",
    "C80_language_refuted",
    "C80_range_refuted",
    "C80_version_refuted"
   ],
   "note": "The RelaxNG validator is an argument. The verdict is for documents that can be read; an error of reading is not caught (C80_unread). An empty <version> stops the tool (C80_answers, C80_version_refuted); without a schema or in test mode nothing passes (C80_all_fail_refuted); code points of a range that IDNA does not allow are left out and the document may pass (C80_range_refuted)."
  },
  {
   "property": "C81",
   "status": "partial",
   "theorems": [
    "C81_eligible",
    "C81_one_answer",
    "C81_refused",
    "C81_all_labels",
    "C81_script",
    "C81_one_lgr",
    "C81_set",
    "C81_variants_refuted",
    "C81_set_label_refuted",
    "C81_empty_line_refuted",
    "C81_a_label_refuted"
   ],
   "note": "The listing of the variants fails for every eligible label (C81_variants_refuted); a set label outside the LGR of the script (C81_set_label_refuted) and an empty line (C81_empty_line_refuted) end the run; input lines are not decoded as the set labels are (C81_a_label_refuted). The rest is proved. Merging the LGRs and reading the files are not part of this model."
  },
  {
   "property": "C82",
   "status": "partial",
   "theorems": [
    "C82_eligible",
    "C82_refused",
    "C82_fails",
    "C82_all_labels",
    "C82_test_mode",
    "C82_action_partial",
    "C82_action_refuted"
   ],
   "note": "The action is named correctly except for the first default action, which is shown as an action of the LGR that does not exist (C82_action_partial, C82_action_refuted). The log, which is not written to the output, is not modelled."
  },
  {
   "property": "C83",
   "status": "partial",
   "theorems": [
    "C83_one_per_line",
    "C83_rfc4290",
    "C83_rfc4290_stops",
    "C83_rfc3743_partial",
    "C83_version_refuted",
    "C83_cited_twice_refuted",
    "C83_empty_comment_refuted",
    "C83_idna_registry",
    "C83_idna_registry_refused"
   ],
   "note": "RFC 3743 tables: proved for tolerant reading or without version line, without repeated citations and empty reference comments (C83_rfc3743_partial); refuted otherwise (C83_version_refuted for every table with a version line, C83_cited_twice_refuted, C83_empty_comment_refuted). The other formats are proved in full. Fetching the registry and the layout of the XML text are outside of the model."
  },
  {
   "property": "C84",
   "status": "proved",
   "theorems": [
    "C84_strict_is_tolerant",
    "C84_refused_anyway",
    "C84_undefined_reference_refuted",
    "C84_repeated_reference_refuted",
    "C84_date_refuted"
   ],
   "note": "The statement is proved for all documents. The refuted theorems are about a further claim, that what strict reading refuses shows in the tests of tolerant reading."
  },
  {
   "property": "C85",
   "status": "partial",
   "theorems": [
    "C85_completes",
    "C85_prints",
    "C85_silent",
    "C85_errors",
    "C85_dump_refuted"
   ],
   "note": "For documents with plain metadata, qualified rule elements and, with a database, names given once (as C77). Variants that were there are kept if no context is the empty string. Printing the same again is unconditional (C26_idempotent). C85_dump_refuted: xml_dump reads an option it does not declare and stops for every document."
  },
  {
   "property": "C86",
   "status": "partial",
   "theorems": [
    "C86_completes",
    "C86_database",
    "C86_summary",
    "C86_tags",
    "C86_repertoire",
    "C86_variants",
    "C86_types",
    "C86_checks",
    "C86_notice",
    "C86_classes",
    "C86_class_lines",
    "C86_rules",
    "C86_actions",
    "C86_dispositions",
    "C86_self",
    "C86_self_completes",
    "C86_class_order",
    "C86_action_remarks",
    "C86_order_refuted",
    "C86_reflexive_refuted",
    "C86_checks_refuted",
    "C86_general_refuted",
    "C86_languages_refuted",
    "C86_sequence_refuted",
    "C86_missing_refuted"
   ],
   "note": "Self-match is for tables with at most one language, without ranges and with at most one context per code point; types and contexts are compared when no two variants share source and target (C52 for the rest); the rules part for references without ranges. Refuted: the summary leaves out the order of actions, the symmetry and transitivity checks and the general rules; reflexive variants are not reviewed; two languages do not match themselves; a sequence outside the reference's repertoire stops the review; a present sequence is said to be missing."
  },
  {
   "property": "C87",
   "status": "partial",
   "theorems": [
    "C87_answers",
    "C87_completes",
    "C87_variants",
    "C87_blocks_partial",
    "C87_taken_refuted",
    "C87_outside_refuted",
    "C87_named_refuted",
    "C87_empty_refuted",
    "C87_options",
    "C87_others_start",
    "C87_starts_refuted"
   ],
   "note": "Variants to block: exact as computed (C87_answers), complete in simple LGRs apart from the reference label itself, which may be missing (C87_taken_refuted). Refuted: a label outside of the LGR stops the run; only one colliding reference label is named; empty lines collide. The tool declares an option twice and never starts (C87_starts_refuted): the rest is about main after the parsing of arguments."
  },
  {
   "property": "C88",
   "status": "partial",
   "theorems": [
    "C88_union_partial",
    "C88_intersection_partial",
    "C88_intersection_again",
    "C88_union_again_partial",
    "C88_union_again_refuted",
    "C88_unreadable",
    "C88_one_and_set",
    "C88_sets",
    "C88_sets_compared",
    "C88_member_refuted",
    "C88_member_fails",
    "C88_schema_refuted"
   ],
   "note": "Metadata, code points, variants and references are read back; classes, rules and actions are printed as texts and not covered (C28 records what is wrong with them). Refuted: after a union in which an action has two texts, a later intersection gives an action the text of another; a member of a set without LGR makes the tool fail; a file refused by the schema is taken as member of a set. The text of DIFF is C29."
  },
  {
   "property": "C89",
   "status": "partial",
   "theorems": [
    "C89_writes",
    "C89_root",
    "C89_names",
    "C89_fails",
    "C89_same_name_refuted",
    "C89_root_ignored_refuted",
    "C89_refused_refuted"
   ],
   "note": "Refuted: of two files with the same name in different directories only the second result is left; a root zone refused by the schema is silently left out; an LGR refused by the schema ends the tool with an error of its own (AttributeError on None). What is written is the document before it is laid out as text."
  },
  {
   "property": "C90",
   "status": "partial",
   "theorems": [
    "C90_exact",
    "C90_completes",
    "C90_any_order",
    "C90_names",
    "C90_sound",
    "C90_stops",
    "C90_unread",
    "C90_core_completes",
    "C90_core",
    "C90_clash_refuted",
    "C90_same_name_refuted",
    "C90_refused",
    "C90_skipped_refuted"
   ],
   "note": "Needs that no two pairs share a file name, which holds if base names differ on each side and those of one side have no underscore. Refuted without that: tables a_b and a against references c and b_c share a_b_c.json; tables of the same name in different directories share a file. Refuted: a file refused by the schema is announced as skipped, but is kept as None and makes the tool fail, leaving an empty None_....json."
  },
  {
   "property": "C91",
   "status": "proved",
   "theorems": [
    "C91_settled",
    "C91_populate",
    "C91_harmonize",
    "C91_mappings_to_itself",
    "C91_new_is_valid",
    "C91_foreign_is_valid",
    "C91_new_refuted",
    "C91_foreign_refuted"
   ],
   "note": "Rules are an arbitrary function of the label, the same before and after. For labels with added code points it fails (C91_new_refuted, C91_foreign_refuted): an added code point is a valid label under the default actions, even where harmonizing marks it as out-of-repertoire."
  },
  {
   "property": "C92",
   "status": "proved",
   "theorems": [
    "C92_report",
    "C92_completes",
    "C92_reading",
    "C92_itself",
    "C92_stops",
    "C92_tool",
    "C92_lost_refuted"
   ],
   "note": "The rule logs and the format of the lines are not modelled. C92_lost_refuted: the collisions of both LGRs are lost when one label cannot be compared."
  },
  {
   "property": "C93",
   "status": "partial",
   "theorems": [
    "C93_exact",
    "C93_subset",
    "C93_filter_partial",
    "C93_alternatives_partial",
    "C93_whole_script_partial",
    "C93_verdict_refuted",
    "C93_sequence_refuted",
    "C93_order_refuted"
   ],
   "note": "C93_exact and C93_subset hold for all labels; the types are kept when the label has no code point of script Common or Inherited (C93_filter_partial), whole-script variants when no sequence occurs in it (C93_whole_script_partial). C93_verdict_refuted, C93_sequence_refuted and C93_order_refuted show that these limits are needed."
  },
  {
   "property": "C94",
   "status": "partial",
   "theorems": [
    "C94_one_partial",
    "C94_set_partial",
    "C94_nothing_done",
    "C94_other_files",
    "C94_no_labels",
    "C94_member_fails",
    "C94_in_place_refuted",
    "C94_in_place",
    "C94_merge",
    "C94_merge_output_refuted"
   ],
   "note": "Partial because the label file must not be the output file (C94_in_place_refuted: it is emptied) and because the merge tool prints the repr of the bytes of the document, never the document (C94_merge_output_refuted, for every set). How a line is written is any function."
  },
  {
   "property": "C95",
   "status": "partial",
   "theorems": [
    "C95_harmonized_partial",
    "C95_harmonized_root",
    "C95_harmonized_exact",
    "C95_harmonized_keeps",
    "C95_harmonized_refuted",
    "C95_merged_partial",
    "C95_merged_keeps_partial",
    "C95_merged_pair",
    "C95_merged_refuted"
   ],
   "note": "Partial: for LGRs of single code points without context rules; without root zone LGR the LGRs must be symmetric and transitive before (C95_harmonized_refuted); a merged LGR that is not transitive loses collisions of its members (C95_merged_refuted)."
  },
  {
   "property": "C96",
   "status": "partial",
   "theorems": [
    "C96_classes_partial",
    "C96_rules_partial",
    "C96_answers_partial",
    "C96_tags",
    "C96_names",
    "C96_shared_rule_dangles_refuted",
    "C96_shared_rule_forgets_tag_refuted",
    "C96_colon_class_refuted",
    "C96_name_like_common_refuted",
    "C96_common_rule_refuted",
    "C96_colon_tag_refuted",
    "C96_redefined_rule_refuted"
   ],
   "note": "Partial: for names that cannot be confused (clear_set: scripts none of which begins like another, no colon, nothing beginning like 'leading-combining-mark', no redefinition) and rules not shared by several scripts; each restriction has a refutation. The edits are modelled on the parsed rule or class, not on the text."
  },
  {
   "property": "C97",
   "status": "partial",
   "theorems": [
    "C97_intersection",
    "C97_intersection_covers",
    "C97_common_labels_partial",
    "C97_intersection_within_partial",
    "C97_intersection_context_refuted",
    "C97_intersection_longest_refuted",
    "C97_intersection_sequences_refuted",
    "C97_union",
    "C97_union_covers",
    "C97_union_keeps_first_partial",
    "C97_union_keeps_second_partial",
    "C97_union_sequences_refuted",
    "C97_union_context_refuted",
    "C97_intersection_collisions",
    "C97_union_collisions_refuted"
   ],
   "note": "Partial: the necessary and the sufficient conditions and the collisions of the intersection are fully proved; 'a label of either is one of the union' and the like hold for LGRs without sequences (and, for the intersection, context rules) and are refuted otherwise, as is the survival of collisions in the union."
  },
  {
   "property": "C98",
   "status": "partial",
   "theorems": [
    "C98_collisions",
    "C98_errors",
    "C98_sections",
    "C98_completes",
    "C98_without_tlds_refuted"
   ],
   "note": "Partial: proved when a list of TLDs is given; without one the function raises (C98_without_tlds_refuted). Lines are structured, not formatted."
  },
  {
   "property": "C99",
   "status": "partial",
   "theorems": [
    "C99_verdict_partial",
    "C99_only_members",
    "C99_member_partial",
    "C99_no_selves",
    "C99_variants_blocked",
    "C99_other_actions_refuted",
    "C99_own_type_refuted",
    "C99_default_first_refuted"
   ],
   "note": "Partial: the verdict is proved for merged LGRs in which no code point is its own variant, and equality with a member's verdict when its default actions come last and no other member's action triggers; refutations show that these are needed. The entries are those of the LGR re-read after merging (C100); that rules keep their answers is C96 and a hypothesis here."
  },
  {
   "property": "C100",
   "status": "partial",
   "theorems": [
    "C100_reads_back",
    "C100_code_points",
    "C100_rebuilt",
    "C100_verdict_partial",
    "C100_succeeds_partial",
    "C100_agreeing_exact",
    "C100_fails",
    "C100_citation_lost_refuted",
    "C100_strictly_readable_refuted"
   ],
   "note": "Partial: that the merge succeeds is proved for sets in which at most one LGR says something on each shared code point or in which those that do agree, exactly when they ask for the same rules (as C38); verdicts for merged LGRs in which no code point is its own variant (as C99). Rules, classes and actions are read back in C96. Two refutations: a citation on a shared code point gets lost, and the result may have both kinds of context on one entry, which a strict reader refuses."
  },
  {
   "property": "C101",
   "status": "partial",
   "theorems": [
    "C101_answers",
    "C101_parse_after",
    "C101_fails_the_same",
    "C101_stream_refuted",
    "C101_heuristic_version_refuted",
    "C101_heuristic_database_refuted",
    "C101_heuristic_database_after"
   ],
   "note": "Partial: false for a source that is an open file: it is not set back after a validation (C101_stream_refuted). The parser that guesses the format cannot tell the Unicode version before parsing, and does not use the Unicode database it was given before (two refutations). RelaxNG validation is an argument."
  },
  {
   "property": "C102",
   "status": "partial",
   "theorems": [
    "C102_harmonized",
    "C102_succeeds_exact",
    "C102_symmetric",
    "C102_transitive",
    "C102_related",
    "C102_itself",
    "C102_labels_partial",
    "C102_root_harmonized",
    "C102_root_succeeds_exact",
    "C102_root_complete",
    "C102_root_related",
    "C102_root_labels_partial",
    "C102_valid_label_refuted",
    "C102_context_refuted"
   ],
   "note": "Partial: with and without root zone LGR (C102_root_*, where the variants need not be complete before); labels with code points and variants one by one, as in C95 (C102_labels_partial). Not all stays: a label of the first LGR may be blocked afterwards (C102_valid_label_refuted), and LGRs whose common variants have context rules cannot be merged (C102_context_refuted, in general C38_conditional_variant_stops)."
  },
  {
   "property": "C103",
   "status": "partial",
   "theorems": [
    "C103_glued",
    "C103_one_shared",
    "C103_labels",
    "C103_fitted",
    "C103_fitted_exact",
    "C103_pair_exact",
    "C103_fitted_labels",
    "C103_glued_fitted",
    "C103_same_variants",
    "C103_settled",
    "C103_one_round_refuted",
    "C103_harmonized",
    "C103_settles",
    "C103_rounds_end",
    "C103_outcome",
    "C103_harmonized_labels",
    "C103_same_labels",
    "C103_chains_refuted"
   ],
   "note": "Proved under the condition, also for labels, and that all beginnings of a set are merged to complete variants exactly under the wider condition `fitted` (C103_fitted_exact), two LGRs exactly under `pair_fits` (C103_pair_exact); without it a chain may be left out (C103_chains_refuted) or the merge stop (C38_pair_stops_witness). Labels with code points and variants one by one, as in C95."
  }
 ]
}