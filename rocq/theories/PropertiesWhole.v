(** The review of an IDN table against a reference LGR (C86). *)
From Coq Require Import Sorting.Sorted.
From Verif Require Import Base CharModel RepSpec ActionModel LgrModel LgrReach ValidateSpec LabelSpec ClassModel ReviewModel ReviewSpec ReviewRules LangModel LangSpec LangWitness GeneralModel WholeModel WholeSpec WholeProofs WholeTotal WholeMore WholeWitness.
From Verif Require Import UtilsModel RepProofs LgrProofs LgrSpec.
Open Scope N_scope.
Open Scope string_scope.
Open Scope list_scope.

(** C86: the review completes when both LGRs have a Unicode database, their variants
    go both ways, their classes can be evaluated and the table has no sequence. *)
Theorem C86_completes : forall o idn ref, lgr_reachable (it_lgr idn) -> lgr_reachable (it_lgr ref) -> symmetric (it_rep idn) -> symmetric (it_rep ref) ->
  classes_fine (wo_runtime o) (wo_fuel o) idn -> classes_fine (wo_runtime o) (wo_fuel o) ref ->
  (forall c ch, lookup (it_rep idn) c = Some ch -> is_seq ch = false) -> (forall l, exists b, wo_test o l = Ok b) ->
  exists w s, review_lgr o idn ref = Ok (w, s).
Proof. exact review_total. Qed.
Print Assumptions C86_completes.
Example C86_completes_ex : (lgr_reachable (it_lgr w_idn) /\ lgr_reachable (it_lgr w_ref) /\ symmetric (it_rep w_idn) /\ symmetric (it_rep w_ref) /\
    classes_fine (wo_runtime w_world) (wo_fuel w_world) w_idn /\ classes_fine (wo_runtime w_world) (wo_fuel w_world) w_ref /\
    (forall c ch, lookup (it_rep w_idn) c = Some ch -> is_seq ch = false) /\ (forall l, exists b, wo_test w_world l = Ok b)) /\
  outcome (review_lgr w_world w_idn w_ref) =
  Some (["MATCH"; "MATCH"; "REVIEW"; "MATCH"; "MANUAL CHECK"; "MANUAL CHECK"], RMatch, [Some (true, true); Some (true, true)], ["vowels"]).
Proof. exact (conj w_hypotheses w_outcome). Qed.

(** C86: without a Unicode database it does not. *)
Theorem C86_database : forall o idn ref x, lgr_reachable (it_lgr idn) -> lgr_reachable (it_lgr ref) -> review_lgr o idn ref = Ok x -> it_db idn <> None /\ it_db ref <> None.
Proof. exact database_needed. Qed.
Print Assumptions C86_database.
Example C86_database_ex : exists w s, review_lgr w_world w_idn w_idn = Ok (w, s) /\ all_match s /\ map kl_name (wh_classes w) = ["vowels"] /\ wh_checks w = [Some (true, true); Some (true, true)].
Proof. exact w_self. Qed.

(** C86: each part of the summary tells the worst result of its lines and counts
    their remarks. *)
Theorem C86_summary : forall o idn ref w s, review_lgr o idn ref = Ok (w, s) ->
  sums_up (su_tags s) (tag_lines w) /\ sums_up (su_repertoire s) (cp_lines w) /\ sums_up (su_variants s) (variant_lines w) /\
  sums_up (su_classes s) (class_results w) /\ sums_up (su_rules s) (rule_lines w) /\ sums_up (su_actions s) (action_lines w).
Proof. exact (fun o idn ref w s E => summary_parts w s (pt_summary _ _ _ _ _ (review_parts o idn ref w s E))). Qed.
Print Assumptions C86_summary.
Example C86_summary_ex : exists w s, review_lgr w_world w_idn w_idn = Ok (w, s) /\ all_match s /\ map kl_name (wh_classes w) = ["vowels"] /\ wh_checks w = [Some (true, true); Some (true, true)].
Proof. exact w_self. Qed.

(** C86: the languages match exactly when each of the table matches each of the
    reference, and the table has one if the reference does. *)
Theorem C86_tags : forall o idn ref w s, review_lgr o idn ref = Ok (w, s) -> (overall (su_tags s) RMatch <->
  (it_languages idn = [] -> it_languages ref = []) /\
  forall t r, In t (it_languages idn) -> In r (it_languages ref) -> exists m, compared_to (wo_tags o) (wo_alpha2 o) t r (RMatch, m)).
Proof. exact tags_match. Qed.
Print Assumptions C86_tags.
Example C86_tags_ex : outcome (review_lgr w_world w_idn w_ref) =
  Some (["MATCH"; "MATCH"; "REVIEW"; "MATCH"; "MANUAL CHECK"; "MANUAL CHECK"], RMatch, [Some (true, true); Some (true, true)], ["vowels"]).
Proof. exact w_outcome. Qed.

(** C86: the repertoires match exactly when they have the same code points and
    sequences, with the same tags (script tags apart) and contexts. *)
Theorem C86_repertoire : forall o idn ref, any_order (wo_strings o) -> lgr_reachable (it_lgr idn) -> lgr_reachable (it_lgr ref) ->
  forall w s, review_lgr o idn ref = Ok (w, s) -> (overall (su_repertoire s) RMatch <->
  forall c, match lookup (it_rep idn) c, lookup (it_rep ref) c with
            | None, None => True
            | Some a, Some b => same_code_point a b
            | _, _ => False
            end).
Proof. exact repertoire_match. Qed.
Print Assumptions C86_repertoire.
Example C86_repertoire_ex : outcome (review_lgr w_world w_idn w_ref) =
  Some (["MATCH"; "MATCH"; "REVIEW"; "MATCH"; "MANUAL CHECK"; "MANUAL CHECK"], RMatch, [Some (true, true); Some (true, true)], ["vowels"]).
Proof. exact w_outcome. Qed.

(** C86: if repertoires and variants match, both have the same variants, those from
    a code point to itself apart. *)
Theorem C86_variants : forall o idn ref, any_order (wo_strings o) -> any_order (wo_cps o) -> lgr_reachable (it_lgr idn) -> lgr_reachable (it_lgr ref) ->
  forall w s, review_lgr o idn ref = Ok (w, s) -> symmetric (it_rep idn) -> symmetric (it_rep ref) ->
  overall (su_repertoire s) RMatch -> overall (su_variants s) RMatch ->
  forall a b, a <> b -> (has_target (it_rep idn) a b <-> has_target (it_rep ref) a b).
Proof. exact variants_match. Qed.
Print Assumptions C86_variants.
Example C86_variants_ex : exists w s, review_lgr w_world w_idn w_idn = Ok (w, s) /\ all_match s /\ map kl_name (wh_classes w) = ["vowels"] /\ wh_checks w = [Some (true, true); Some (true, true)].
Proof. exact w_self. Qed.
(** C86: and these have the same types and contexts, when there are not several for
    the same code points. *)
Theorem C86_types : forall o idn ref, any_order (wo_strings o) -> any_order (wo_variants o) -> any_order (wo_cps o) -> lgr_reachable (it_lgr idn) -> lgr_reachable (it_lgr ref) ->
  forall w s, review_lgr o idn ref = Ok (w, s) -> symmetric (it_rep idn) -> symmetric (it_rep ref) ->
  overall (su_repertoire s) RMatch -> overall (su_variants s) RMatch ->
  one_variant (it_rep idn) -> one_variant (it_rep ref) -> no_empty_type (it_rep idn) -> no_empty_type (it_rep ref) ->
  forall a b v x, a <> b -> mapping (it_rep idn) a b v -> mapping (it_rep ref) a b x -> v_type v = v_type x /\ variant_context v = variant_context x.
Proof. exact variants_agree. Qed.
Print Assumptions C86_types.
Example C86_types_ex : any_order (wo_variants w_world) /\ one_variant (it_rep w_idn) /\ no_empty_type (it_rep w_idn).
Proof. exact w_types. Qed.

(** C86: the checks tell, set by set, whether its members are in the table and their
    variants go both ways, and whether a variant of a variant is a variant. *)
Theorem C86_checks : forall o idn ref w s, lgr_reachable (it_lgr idn) -> review_lgr o idn ref = Ok (w, s) ->
  Forall2 (fun x c => check_says (it_rep idn) (fst (fst x)) c) (wh_variants w) (wh_checks w).
Proof. exact checks_told. Qed.
Print Assumptions C86_checks.
Example C86_checks_ex : exists w s, review_lgr w_world w_idn w_idn = Ok (w, s) /\ all_match s /\ map kl_name (wh_classes w) = ["vowels"] /\ wh_checks w = [Some (true, true); Some (true, true)].
Proof. exact w_self. Qed.

(** C86: a set the table does not have gets a remark on the first of its sequences
    made with a code point of the table, on every row; nothing else is added. *)
Theorem C86_notice : forall o idn ref w s, lgr_reachable (it_lgr idn) -> no_ranges (it_rep idn) -> review_lgr o idn ref = Ok (w, s) ->
  exists rows, variant_sets_report (wo_variants o) (wo_cps o) (it_rep idn) (it_rep ref) = Ok rows /\
    Forall2 (fun x y => fst x = fst y /\
      (forall c, fst (fst x) = [] -> first_broken (it_rep idn) (snd (fst x)) c -> Forall2 (with_remark (may_be_missing (wo_shown o c))) (snd x) (snd y)) /\
      (fst (fst x) <> [] \/ (forall c, In c (snd (fst x)) -> ~ broken (it_rep idn) c) -> snd y = snd x)) rows (wh_variants w).
Proof. exact notice_told. Qed.
Print Assumptions C86_notice.
Example C86_notice_ex : exists w s, review_lgr w_world (w_table [txt "en"] ReviewWitness.letters [] [] [])
    (w_table [txt "en"] (ReviewWitness.letters ++ [ValidateFinal.lcp [4; 6]; ReviewWitness.lvart [1] [4; 6] "blocked"; ReviewWitness.lvart [4; 6] [1] "blocked"]) [] [] []) = Ok (w, s) /\
  map (fun p => (fst p, map (fun x => vr_fwd x) (snd p))) (wh_variants w) = [([], [[1]; [4; 6]], [(RReview, ("Variant set exists in the reference LGR" ++ may_be_missing "...")%string)])].
Proof. exact w_notice. Qed.

(** C86: the classes match exactly when those with a member among the code points of
    the table have the same members in both. *)
Theorem C86_classes : forall o idn ref, lgr_reachable (it_lgr idn) -> lgr_reachable (it_lgr ref) -> forall w s, review_lgr o idn ref = Ok (w, s) ->
  (overall (su_classes s) RMatch <->
   forall n, (exists c, member (wo_fuel o) idn n c) \/ (exists c, member (wo_fuel o) ref n c /\ point (it_rep idn) c) ->
   forall c, member (wo_fuel o) idn n c <-> member (wo_fuel o) ref n c).
Proof. exact classes_match. Qed.
Print Assumptions C86_classes.
Example C86_classes_ex : outcome (review_lgr w_world w_idn w_ref) =
  Some (["MATCH"; "MATCH"; "REVIEW"; "MATCH"; "MANUAL CHECK"; "MANUAL CHECK"], RMatch, [Some (true, true); Some (true, true)], ["vowels"]).
Proof. exact w_outcome. Qed.
(** C86: each of these classes has a line, with its members in both. *)
Theorem C86_class_lines : forall runtime fuel idn ref, wf_rep (it_rep idn) -> wf_rep (it_rep ref) -> classes_fine runtime fuel idn -> classes_fine runtime fuel ref ->
  exists l, classes_report runtime fuel idn ref = Ok l /\
  (forall x, In x l -> (exists k, defines idn (kl_name x) k \/ defines ref (kl_name x) k) /\
     (forall c, In c (kl_idn x) <-> member fuel idn (kl_name x) c) /\ (forall c, In c (kl_ref x) <-> member fuel ref (kl_name x) c) /\
     (fst (kl_result x) = RMatch <-> forall c, member fuel idn (kl_name x) c <-> member fuel ref (kl_name x) c)) /\
  (forall n, (exists c, member fuel idn n c) \/ (exists c, member fuel ref n c /\ point (it_rep idn) c) <-> In n (map kl_name l)).
Proof. exact classes_are. Qed.
Print Assumptions C86_class_lines.
Example C86_class_lines_ex : outcome (review_lgr w_world w_idn w_ref) =
  Some (["MATCH"; "MATCH"; "REVIEW"; "MATCH"; "MANUAL CHECK"; "MANUAL CHECK"], RMatch, [Some (true, true); Some (true, true)], ["vowels"]).
Proof. exact w_outcome. Qed.

(** C86: the rules match exactly when both have the same, with the same text, used as
    contexts of the same code points. *)
Theorem C86_rules : forall o idn ref, lgr_reachable (it_lgr idn) -> lgr_reachable (it_lgr ref) -> forall w s, review_lgr o idn ref = Ok (w, s) -> no_ranges (it_rep ref) ->
  (overall (su_rules s) RMatch <->
   forall n, dget String.eqb n (it_rules idn) <> None \/ dget String.eqb n (it_rules ref) <> None ->
     dget String.eqb n (it_rules idn) = dget String.eqb n (it_rules ref) /\
     forall c, (exists ch, lookup (it_rep idn) c = Some ch /\ idn_rule ch n) <-> (exists ch, lookup (it_rep ref) c = Some ch /\ ref_rule ch n)).
Proof. exact rules_match. Qed.
Print Assumptions C86_rules.
Example C86_rules_ex : outcome (review_lgr w_world w_idn w_ref) =
  Some (["MATCH"; "MATCH"; "REVIEW"; "MATCH"; "MANUAL CHECK"; "MANUAL CHECK"], RMatch, [Some (true, true); Some (true, true)], ["vowels"]).
Proof. exact w_outcome. Qed.

(** C86: the actions match exactly when each has its equal in the other; if moreover
    their order is a match, labels get the same disposition. *)
Theorem C86_actions : forall o idn ref w s, review_lgr o idn ref = Ok (w, s) -> (overall (su_actions s) RMatch <->
  (forall a, In a (it_actions idn) -> found a (it_actions ref)) /\ (forall a, In a (it_actions ref) -> found a (it_actions idn))).
Proof. exact actions_match. Qed.
Print Assumptions C86_actions.
Example C86_actions_ex : outcome (review_lgr w_world w_idn w_ref) =
  Some (["MATCH"; "MATCH"; "REVIEW"; "MATCH"; "MANUAL CHECK"; "MANUAL CHECK"], RMatch, [Some (true, true); Some (true, true)], ["vowels"]).
Proof. exact w_outcome. Qed.
Theorem C86_dispositions : forall o idn ref w s, review_lgr o idn ref = Ok (w, s) -> overall (su_actions s) RMatch -> wh_sequence w = RMatch ->
  forall rm label ds only, fst (apply_actions rm (it_actions idn) label ds only) = fst (apply_actions rm (it_actions ref) label ds only).
Proof. exact actions_agree. Qed.
Print Assumptions C86_dispositions.
Example C86_dispositions_ex : exists w s, review_lgr w_world w_idn w_idn = Ok (w, s) /\ all_match s /\ map kl_name (wh_classes w) = ["vowels"] /\ wh_checks w = [Some (true, true); Some (true, true)].
Proof. exact w_self. Qed.

(** C86: a table with at most one language, without ranges and with at most one
    context for a code point matches itself. *)
Theorem C86_self : forall o t w s, any_order (wo_strings o) -> any_order (wo_cps o) -> lgr_reachable (it_lgr t) -> no_ranges (it_rep t) -> one_rule (it_rep t) ->
  (List.length (it_languages t) <= 1)%nat -> review_lgr o t t = Ok (w, s) -> all_match s.
Proof. exact review_self. Qed.
Print Assumptions C86_self.
Example C86_self_ex : no_ranges (it_rep w_idn) /\ one_rule (it_rep w_idn) /\ (List.length (it_languages w_idn) <= 1)%nat.
Proof. exact w_self_hypotheses. Qed.
(** C86: whether or not its variants go both ways. *)
Theorem C86_self_completes : forall o t, any_order (wo_cps o) -> lgr_reachable (it_lgr t) -> classes_fine (wo_runtime o) (wo_fuel o) t ->
  (forall c ch, lookup (it_rep t) c = Some ch -> is_seq ch = false) -> (forall l, exists b, wo_test o l = Ok b) ->
  exists w s, review_lgr o t t = Ok (w, s).
Proof. exact review_self_total. Qed.
Print Assumptions C86_self_completes.
Example C86_self_completes_ex : exists w s, review_lgr w_world w_idn w_idn = Ok (w, s) /\ all_match s /\ map kl_name (wh_classes w) = ["vowels"] /\ wh_checks w = [Some (true, true); Some (true, true)].
Proof. exact w_self. Qed.

(** C86: the classes come by name, those the LGR names before those made for a tag. *)
Theorem C86_class_order : forall o idn ref w s, review_lgr o idn ref = Ok (w, s) -> StronglySorted (fun a b => class_before (kl_name a) (kl_name b)) (wh_classes w).
Proof. exact classes_sorted. Qed.
Print Assumptions C86_class_order.
Example C86_class_order_ex : class_before "vowels" "#__internal_tag_a" /\ ~ class_before "#__internal_tag_a" "vowels" /\ class_before "marks" "vowels" /\ ~ class_before "vowels" "marks".
Proof. exact w_before. Qed.
(** C86: the lines on the actions. *)
Theorem C86_action_remarks : forall o idn ref w s, review_lgr o idn ref = Ok (w, s) -> forall p, In p (action_lines w) <->
  (exists a, In a (it_actions idn) /\ found a (it_actions ref) /\ p = (RMatch, "Exact Match (action name and content are the same)")) \/
  (exists a, In a (it_actions idn) /\ ~ found a (it_actions ref) /\ p = (RManual, "Mismatch (additional action)")) \/
  (exists a, In a (it_actions ref) /\ ~ found a (it_actions idn) /\ p = (RManual, "Mismatch (missing action)")).
Proof. exact action_remarks. Qed.
Print Assumptions C86_action_remarks.
Example C86_action_remarks_ex : exists w s, review_lgr w_world w_idn w_ref = Ok (w, s) /\ action_lines w = [(RMatch, "Exact Match (action name and content are the same)"); (RManual, "Mismatch (additional action)")].
Proof. exact w_remarks. Qed.

(** A match everywhere does not tell that labels get the same disposition: the order
    of the actions is not in the summary. *)
Theorem C86_order_refuted : exists o idn ref w s label, review_lgr o idn ref = Ok (w, s) /\ all_match s /\ wh_sequence w = RManual /\
  fst (apply_actions (fun _ _ _ => false) (it_actions idn) label [] false) <> fst (apply_actions (fun _ _ _ => false) (it_actions ref) label [] false).
Proof. exact order_not_told. Qed.
Print Assumptions C86_order_refuted.
(** Nor that the variants are the same: those from a code point to itself are not
    reviewed. *)
Theorem C86_reflexive_refuted : exists o idn ref w s c, lgr_reachable (it_lgr idn) /\ lgr_reachable (it_lgr ref) /\ symmetric (it_rep idn) /\ symmetric (it_rep ref) /\
  review_lgr o idn ref = Ok (w, s) /\ all_match s /\ has_target (it_rep ref) c c /\ ~ has_target (it_rep idn) c c.
Proof. exact reflexive_not_told. Qed.
Print Assumptions C86_reflexive_refuted.
(** Nor that the checks of the variant sets passed. *)
Theorem C86_checks_refuted : exists o idn w s, lgr_reachable (it_lgr idn) /\ ~ symmetric (it_rep idn) /\ review_lgr o idn idn = Ok (w, s) /\ all_match s /\ wh_checks w = [Some (false, true)].
Proof. exact asymmetry_not_told. Qed.
Print Assumptions C86_checks_refuted.
(** Nor that the general rules are there. *)
Theorem C86_general_refuted : exists o t w s, lgr_reachable (it_lgr t) /\ review_lgr o t t = Ok (w, s) /\ all_match s /\ ge_hyphen (wh_general w) = (true, Some false).
Proof. exact general_not_told. Qed.
Print Assumptions C86_general_refuted.
(** A table with two languages does not match itself. *)
Theorem C86_languages_refuted : exists o t w s, lgr_reachable (it_lgr t) /\ review_lgr o t t = Ok (w, s) /\ overall (su_tags s) RReview.
Proof. exact languages_self. Qed.
Print Assumptions C86_languages_refuted.
(** A variant of the reference that is a sequence outside its repertoire stops the
    review. *)
Theorem C86_sequence_refuted : exists o idn ref c, lgr_reachable (it_lgr idn) /\ lgr_reachable (it_lgr ref) /\ symmetric (it_rep idn) /\
  classes_fine (wo_runtime o) (wo_fuel o) idn /\ classes_fine (wo_runtime o) (wo_fuel o) ref /\ has_target (it_rep ref) [1] c /\ lookup (it_rep ref) c = None /\ review_lgr o idn ref = Raise (NotInLGR c).
Proof. exact sequence_stops. Qed.
Print Assumptions C86_sequence_refuted.
(** A sequence the table has is said to be missing. *)
Theorem C86_missing_refuted : exists o idn ref w s i r rows x c, lgr_reachable (it_lgr idn) /\ lgr_reachable (it_lgr ref) /\ symmetric (it_rep idn) /\ symmetric (it_rep ref) /\
  review_lgr o idn ref = Ok (w, s) /\ In (i, r, rows) (wh_variants w) /\ In x rows /\
  snd (vr_fwd x) = ("Variant set exists in the reference LGR" ++ may_be_missing (wo_shown o c))%string /\ lookup (it_rep idn) c <> None.
Proof. exact notice_wrong. Qed.
Print Assumptions C86_missing_refuted.
