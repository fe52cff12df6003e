(** Property theorems about merge_lgr_set (C38).  Statements only.

    [on] and [ov] are the orders in which the elements of a set come; the
    theorems hold for any.  [tidy] LGRs are those built by the API with ranges
    whose code points are present. *)
From Coq Require Import Permutation.
From Verif Require Import Base CharModel RepSpec RefModel ActionModel LgrModel LgrSpec ValidateSpec ValidateFinal PopulateFinal CompareModel.
From Verif Require Import MergeModel MergeSpec MergeFinal MergeContext MergePair MergeWitness SerialSpec MergeSucceedSpec MergeSucceed MergeSucceedWitness MergeAgree MergeAgreeWitness MergeStop MergeStopWitness CombineWitness MergePairExact MergePairWitness MergeTurn MergeTurnWitness.
Open Scope string_scope.
Open Scope list_scope.

(** The merged LGR has the code points of the members and no others. *)
Theorem C38_code_points : forall on ov, any_order ov -> forall l st, (forall m, In m l -> tidy (mb_lgr m)) -> merge_lgr_set on ov l = Ok st ->
  forall c, lookup (lg_rep (mg_lgr st)) c <> None <-> exists m, In m l /\ has_cp m c.
Proof. exact code_points_merged. Qed.
Print Assumptions C38_code_points.

(** Every reference of the merged LGR is one of a member, and the text of every
    reference of a member is there. *)
Theorem C38_reference_texts : forall on ov, any_order ov -> forall l st, (forall m, In m l -> tidy (mb_lgr m)) -> merge_lgr_set on ov l = Ok st ->
  (forall k r, dget String.eqb k (rm_refs (lg_refs (mg_lgr st))) = Some r -> exists m id, In m l /\ dget String.eqb id (rm_refs (lg_refs (mb_lgr m))) = Some r) /\
  (forall m id t, In m l -> text_in (mb_lgr m) id = Some t -> exists k, text_in (mg_lgr st) k = Some t).
Proof. exact references_merged. Qed.
Print Assumptions C38_reference_texts.

(** A code point of one member only keeps its comment, its context rules under
    the name given to them, and, when no two members have the same script, the
    meaning of its references. *)
Theorem C38_one_member_partial : forall on ov, any_order ov -> forall l st, (forall m, In m l -> tidy (mb_lgr m)) -> merge_lgr_set on ov l = Ok st ->
  forall m c, only_member l m c ->
    (exists ch ch', lookup (lg_rep (mb_lgr m)) c = Some ch /\ lookup (lg_rep (mg_lgr st)) c = Some ch' /\ ch_comment ch' = ch_comment ch /\
       ch_when ch' = renamed (get_script m) (ch_when ch) /\ ch_not_when ch' = renamed (get_script m) (ch_not_when ch)) /\
    (NoDup (map get_script l) -> forall ch ch', lookup (lg_rep (mb_lgr m)) c = Some ch -> lookup (lg_rep (mg_lgr st)) c = Some ch' ->
       Forall2 (same_text (mb_lgr m) (mg_lgr st)) (ch_refs ch) (ch_refs ch')).
Proof. exact alone_kept. Qed.
Print Assumptions C38_one_member_partial.

(** A code point has the tags its members give it, and no others. *)
Theorem C38_tags : forall on ov, any_order on -> any_order ov -> forall l st, (forall m, In m l -> tidy (mb_lgr m)) -> merge_lgr_set on ov l = Ok st ->
  forall c ch t, lookup (lg_rep (mg_lgr st)) c = Some ch -> (In t (ch_tags ch) <-> exists m, In m l /\ tag_from m c t).
Proof. exact tags_merged. Qed.
Print Assumptions C38_tags.

(** Every variant of the merged LGR is blocked.  It is a member's variant, or one
    added to join two variants of a code point that two members have. *)
Theorem C38_variants_from : forall on ov, any_order ov -> forall l st, (forall m, In m l -> tidy (mb_lgr m)) -> merge_lgr_set on ov l = Ok st ->
  forall a b w, mapping (lg_rep (mg_lgr st)) a b w ->
    (exists m v, In m l /\ mapping (lg_rep (mb_lgr m)) a b v /\ copied m v w) \/
    (joins w /\ exists c, in_two l c /\ has_target (lg_rep (mg_lgr st)) c a /\ has_target (lg_rep (mg_lgr st)) c b).
Proof. exact variants_from. Qed.
Print Assumptions C38_variants_from.

(** Every variant of a member is there: copied, or one with the same code point
    and contexts. *)
Theorem C38_variants_kept : forall on ov, any_order ov -> forall l st, (forall m, In m l -> tidy (mb_lgr m)) -> merge_lgr_set on ov l = Ok st ->
  forall m a b v, In m l -> mapping (lg_rep (mb_lgr m)) a b v ->
  exists w, mapping (lg_rep (mg_lgr st)) a b w /\ (copied m v w \/ vkey w = vkey v).
Proof. exact variants_kept. Qed.
Print Assumptions C38_variants_kept.

(** When no two members have the same script the references of the variants
    keep their meaning. *)
Theorem C38_variant_references : forall on ov, any_order ov -> forall l st, (forall m, In m l -> tidy (mb_lgr m)) -> merge_lgr_set on ov l = Ok st -> NoDup (map get_script l) ->
  forall a b w, mapping (lg_rep (mg_lgr st)) a b w -> joins w \/
    exists m v, In m l /\ mapping (lg_rep (mb_lgr m)) a b v /\ copied m v w /\ Forall2 (same_text (mb_lgr m) (mg_lgr st)) (v_refs v) (v_refs w).
Proof. exact variant_references. Qed.
Print Assumptions C38_variant_references.

(** The merge of symmetric LGRs is symmetric. *)
Theorem C38_symmetric : forall on ov, any_order ov -> forall l st, (forall m, In m l -> tidy (mb_lgr m)) -> merge_lgr_set on ov l = Ok st ->
  (forall m, In m l -> symmetric (lg_rep (mb_lgr m))) -> symmetric (lg_rep (mg_lgr st)).
Proof. exact merge_symmetric. Qed.
Print Assumptions C38_symmetric.

(** Members with no code point in common: the merged LGR relates the code points
    the members relate; it is transitive if they are. *)
Theorem C38_disjoint : forall on ov, any_order ov -> forall l st, (forall m, In m l -> tidy (mb_lgr m)) -> merge_lgr_set on ov l = Ok st ->
  (forall c, ~ in_two l c) -> forall a b, has_target (lg_rep (mg_lgr st)) a b <-> exists m, In m l /\ has_target (lg_rep (mb_lgr m)) a b.
Proof. exact disjoint_targets. Qed.
Print Assumptions C38_disjoint.
Theorem C38_disjoint_transitive : forall on ov, any_order ov -> forall l st, (forall m, In m l -> tidy (mb_lgr m)) -> merge_lgr_set on ov l = Ok st ->
  (forall c, ~ in_two l c) -> (forall m, In m l -> transitive (lg_rep (mb_lgr m))) -> transitive (lg_rep (mg_lgr st)).
Proof. exact disjoint_transitive. Qed.
Print Assumptions C38_disjoint_transitive.

(** Two complete members without conditional variants: the merged LGR relates
    what one of them relates, and two variants of a shared code point, one in
    each. *)
Theorem C38_two_members : forall on ov, any_order ov -> forall m1 m2 st, tidy (mb_lgr m1) -> tidy (mb_lgr m2) ->
  unconditional m1 -> unconditional m2 -> complete m1 -> complete m2 -> merge_lgr_set on ov [m1; m2] = Ok st ->
  forall a b, a <> b -> (has_target (lg_rep (mg_lgr st)) a b <->
    gives m1 a b \/ gives m2 a b \/ exists c, (gives m1 c a /\ gives m2 c b) \/ (gives m2 c a /\ gives m1 c b)).
Proof. exact pair_targets. Qed.
Print Assumptions C38_two_members.
(** With at most one shared code point the merge is complete. *)
Theorem C38_one_shared_complete : forall on ov, any_order ov -> forall m1 m2 st s, tidy (mb_lgr m1) -> tidy (mb_lgr m2) ->
  unconditional m1 -> unconditional m2 -> complete m1 -> complete m2 -> (forall c, has_cp m1 c -> has_cp m2 c -> c = s) ->
  merge_lgr_set on ov [m1; m2] = Ok st -> symmetric (lg_rep (mg_lgr st)) /\ transitive (lg_rep (mg_lgr st)).
Proof. exact one_shared_complete. Qed.
Print Assumptions C38_one_shared_complete.

(** The context rule of a code point: none if no member asks for one; else all
    members asking for one name the same rule [n], and it is called after their
    scripts, the last one first, and [n]. *)
Theorem C38_contexts_partial : forall on ov, any_order ov -> forall l st, (forall m, In m l -> tidy (mb_lgr m)) -> merge_lgr_set on ov l = Ok st ->
  exists l', Permutation l l' /\ in_script_order l' /\ forall c ch', lookup (lg_rep (mg_lgr st)) c = Some ch' ->
    (unambiguous when_of l -> asked_as when_of l' c (ch_when ch')) /\ (unambiguous not_when_of l -> asked_as not_when_of l' c (ch_not_when ch')).
Proof. exact contexts_merged. Qed.
Print Assumptions C38_contexts_partial.
(** Members asking for different rules are never merged. *)
Theorem C38_different_rules_stop : forall on ov, any_order ov -> forall l, (forall m, In m l -> tidy (mb_lgr m)) ->
  forall f, f = when_of \/ f = not_when_of -> unambiguous f l ->
  forall m1 m2 c n1 n2, In m1 l -> In m2 l -> f m1 c = Some n1 -> f m2 c = Some n2 -> n1 <> "" -> n2 <> "" -> n1 <> n2 ->
  forall st, merge_lgr_set on ov l <> Ok st.
Proof. exact different_rules_stop. Qed.
Print Assumptions C38_different_rules_stop.
(** Every rule a code point or variant of the merged LGR asks for is defined. *)
Theorem C38_rules_defined_partial : forall on ov, any_order ov -> forall l st, (forall m, In m l -> tidy (mb_lgr m)) -> merge_lgr_set on ov l = Ok st ->
  unambiguous when_of l -> unambiguous not_when_of l -> (forall m, In m l -> rules_known m) ->
  (forall c ch' w, lookup (lg_rep (mg_lgr st)) c = Some ch' -> ch_when ch' = Some w \/ ch_not_when ch' = Some w -> In w (mg_rules st)) /\
  (forall a b v w, mapping (lg_rep (mg_lgr st)) a b v -> v_when v = Some w \/ v_not_when v = Some w -> In w (mg_rules st)).
Proof. exact contexts_defined. Qed.
Print Assumptions C38_rules_defined_partial.
(** The actions, except the default ones, and the classes come script by
    script. *)
Theorem C38_actions_in_order : forall on ov, any_order ov -> forall l st, (forall m, In m l -> tidy (mb_lgr m)) -> merge_lgr_set on ov l = Ok st ->
  exists l', Permutation l l' /\ in_script_order l' /\
    mg_actions st = flat_map (fun m => map (rename_action (get_script m)) (filter (fun a => negb (memb action_eqb a default_actions)) (mb_actions m))) l' /\
    mg_classes st = flat_map (fun m => map (fun c => (get_script m ++ "-" ++ c)%string) (mb_classes m)) l'.
Proof. exact actions_merged. Qed.
Print Assumptions C38_actions_in_order.
(** The order in which the members are given does not matter if their scripts
    are different. *)
Theorem C38_any_order : forall on ov l1 l2, Permutation l1 l2 -> NoDup (map sort_key l1) -> merge_lgr_set on ov l1 = merge_lgr_set on ov l2.
Proof. exact merge_any_order. Qed.
Print Assumptions C38_any_order.

(** What does not hold. *)
Theorem C38_shared_references_refuted : exists l st m c t, (forall x, In x l -> tidy (mb_lgr x)) /\ NoDup (map get_script l) /\ merge_given l = Ok st /\
  In m l /\ cites (mb_lgr m) c t /\ ~ cites (mg_lgr st) c t.
Proof. exact shared_references_wrong. Qed.
Print Assumptions C38_shared_references_refuted.
Theorem C38_same_script_references_refuted : exists l st m c t, (forall x, In x l -> tidy (mb_lgr x)) /\ merge_given l = Ok st /\
  In m l /\ only_member l m c /\ cites (mb_lgr m) c t /\ ~ cites (mg_lgr st) c t.
Proof. exact same_script_references_wrong. Qed.
Print Assumptions C38_same_script_references_refuted.
Theorem C38_disjoint_merge_refuted : exists l e, (forall x, In x l -> tidy (mb_lgr x)) /\ NoDup (map get_script l) /\ (forall c, ~ in_two l c) /\ merge_given l = Raise e.
Proof. exact aliased_stops. Qed.
Print Assumptions C38_disjoint_merge_refuted.
Theorem C38_two_shared_refuted : exists l e, (forall x, In x l -> tidy (mb_lgr x) /\ symmetric (lg_rep (mb_lgr x)) /\ transitive (lg_rep (mb_lgr x))) /\
  NoDup (map get_script l) /\ merge_given l = Raise e.
Proof. exact two_shared_stops. Qed.
Print Assumptions C38_two_shared_refuted.
Theorem C38_transitive_refuted : exists l st, (forall x, In x l -> tidy (mb_lgr x) /\ symmetric (lg_rep (mb_lgr x)) /\ transitive (lg_rep (mb_lgr x))) /\
  NoDup (map get_script l) /\ merge_given l = Ok st /\ ~ transitive (lg_rep (mg_lgr st)).
Proof. exact merge_not_transitive. Qed.
Print Assumptions C38_transitive_refuted.
Theorem C38_common_rule_refuted : exists m st c ch w, tidy (mb_lgr m) /\ (forall c n, when_of m c = Some n -> In n (mb_rules m)) /\
  merge_given [m] = Ok st /\ lookup (lg_rep (mg_lgr st)) c = Some ch /\ ch_when ch = Some w /\ ~ In w (mg_rules st).
Proof. exact common_rule_dangles. Qed.
Print Assumptions C38_common_rule_refuted.
Theorem C38_same_rule_refuted : exists l e c n, (forall x, In x l -> tidy (mb_lgr x)) /\ NoDup (map get_script l) /\
  (forall x, In x l -> when_of x c = None \/ when_of x c = Some n) /\ merge_given l = Raise e.
Proof. exact same_rule_stops. Qed.
Print Assumptions C38_same_rule_refuted.

(** A set can be merged when no member has a text under two ids, no variant has
    a context rule without name, no two members have the same script, and of two
    members with a code point one at most gives it variants or context rules:
    digits or marks shared by many scripts do no harm.  [proper] LGRs are those
    built without forcing anything.  Sets where several members speak are in
    C38_agreeing_exact, and members whose variants cross in C38_pair_exact and
    C38_in_turn; missing are variants that cross and have context rules. *)
Theorem C38_succeeds_partial : forall on ov, any_order on -> any_order ov -> forall l,
  (forall m, In m l -> proper (mb_lgr m) /\ texts_once m /\ contexts_named m) -> NoDup (map get_script l) -> one_speaks l ->
  exists st, merge_lgr_set on ov l = Ok st.
Proof. exact merge_succeeds. Qed.
Print Assumptions C38_succeeds_partial.
(** A variant with a context rule without name becomes one without, which may be
    there already. *)
Theorem C38_nameless_rule_refuted : exists m e, proper (mb_lgr m) /\ texts_once m /\ merge_given [m] = Raise e.
Proof. exact nameless_stops. Qed.
Print Assumptions C38_nameless_rule_refuted.
Example C38_succeeds_witness : (forall m, In m digits -> proper (mb_lgr m) /\ texts_once m /\ contexts_named m) /\ NoDup (map get_script digits) /\ one_speaks digits /\
  in_two digits [9] /\ in_two digits [21] /\ ~ nothing_said digit_b [9].
Proof. exact digits_meet. Qed.

(** When the variants of shared code points agree (one member gives those of the
    other one and maybe more, without context rules) and no rule name looks
    like a merged one, the merge succeeds exactly if the members that ask for a
    rule on a code point ask for the same one. *)
Theorem C38_agreeing_exact : forall on ov, any_order on -> any_order ov -> forall l,
  (forall m, In m l -> proper (mb_lgr m) /\ texts_once m /\ contexts_named m) -> NoDup (map get_script l) ->
  unambiguous when_of l -> unambiguous not_when_of l -> variants_agree l ->
  ((exists st, merge_lgr_set on ov l = Ok st) <-> same_rules when_of l /\ same_rules not_when_of l).
Proof. exact agreeing_exact. Qed.
Print Assumptions C38_agreeing_exact.
Example C38_agreeing_witness : (forall m, In m agreeing -> proper (mb_lgr m) /\ texts_once m /\ contexts_named m) /\ NoDup (map get_script agreeing) /\
  unambiguous when_of agreeing /\ unambiguous not_when_of agreeing /\ variants_agree agreeing /\ same_rules when_of agreeing /\ same_rules not_when_of agreeing.
Proof. exact agreeing_meet. Qed.
Example C38_agreeing_witness2 : ~ one_speaks agreeing /\ when_of agree_a [9%N] = Some "digit" /\ when_of agree_b [9%N] = Some "digit" /\
  gives agree_b [1%N] [3%N] /\ ~ gives agree_a [1%N] [3%N].
Proof. exact agreeing_shares. Qed.
Example C38_agreeing_witness3 : (exists st, merge_given agreeing = Ok st) /\ forall st, merge_given (agree_d :: agreeing) <> Ok st.
Proof. exact other_rule_stops. Qed.

(** Then no variant is added: the merged LGR relates what a member relates. *)
Theorem C38_agreeing_targets : forall on ov, any_order on -> any_order ov -> forall l st,
  (forall m, In m l -> proper (mb_lgr m) /\ texts_once m /\ contexts_named m) -> NoDup (map get_script l) ->
  unambiguous when_of l -> unambiguous not_when_of l -> variants_agree l -> merge_lgr_set on ov l = Ok st ->
  forall a b, has_target (lg_rep (mg_lgr st)) a b <-> exists m, In m l /\ gives m a b.
Proof. exact agreeing_targets. Qed.
Print Assumptions C38_agreeing_targets.

(** Two members that give a code point the same variant, each under a rule (the
    same or not), are never merged: the variant would be joined to itself,
    twice.  Rule names must not look like merged ones. *)
Theorem C38_conditional_variant_stops : forall on ov, any_order ov -> forall l, variant_rules_clear l -> forall c b, b <> c ->
  (forall m, In m l -> tidy (mb_lgr m)) -> forall m1 m2 rest, Permutation l (m1 :: m2 :: rest) -> conditional m1 c b -> conditional m2 c b ->
  forall st, merge_lgr_set on ov l <> Ok st.
Proof. exact conditional_stops. Qed.
Print Assumptions C38_conditional_variant_stops.
Example C38_conditional_variant_witness : (forall m, In m [when_a; when_b] -> tidy (mb_lgr m)) /\ variant_rules_clear [when_a; when_b] /\
  conditional when_a [1] [2] /\ conditional when_b [1] [2] /\ merge_given [when_a; when_b] = Raise (VariantAlreadyExists [2] [2]).
Proof. exact when_meet. Qed.

(** Two members whose variants have no context rules can be merged exactly when
    they ask for the same rules, and the variants that only one and only the
    other gives a shared code point are code points, are not related to each
    other yet, and meet at that code point only. *)
Theorem C38_pair_exact : forall on ov, any_order on -> any_order ov -> forall m1 m2, proper (mb_lgr m1) -> proper (mb_lgr m2) -> texts_once m1 -> texts_once m2 ->
  unconditional m1 -> unconditional m2 -> get_script m1 <> get_script m2 -> unambiguous when_of [m1; m2] -> unambiguous not_when_of [m1; m2] ->
  ((exists st, merge_lgr_set on ov [m1; m2] = Ok st) <-> same_rules when_of [m1; m2] /\ same_rules not_when_of [m1; m2] /\ joinable m1 m2).
Proof. exact pair_exact. Qed.
Print Assumptions C38_pair_exact.
(** For members that are symmetric and transitive only the last matters. *)
Theorem C38_pair_complete : forall m1 m2, complete m1 -> complete m2 ->
  (joinable m1 m2 <-> forall c c' x y, between m1 m2 c x y -> between m1 m2 c' x y -> c' = c).
Proof. exact complete_joinable. Qed.
Print Assumptions C38_pair_complete.
Example C38_pair_exact_witness : joinable part_a part_c /\ between part_a part_c [2%N] [1%N] [3%N] /\ exists st, merge_lgr_set given given [part_a; part_c] = Ok st.
Proof. exact pair_joinable. Qed.
(** 1, 3 and 2, 4 are variants for the one, 1, 4 and 2, 3 for the other. *)
Example C38_pair_stops_witness : proper (mb_lgr across_a) /\ proper (mb_lgr across_b) /\ complete across_a /\ complete across_b /\ unconditional across_a /\ unconditional across_b /\
  between across_a across_b [1%N] [3%N] [4%N] /\ between across_a across_b [2%N] [3%N] [4%N] /\ ~ joinable across_a across_b /\
  merge_lgr_set given given [across_a; across_b] = Raise (VariantAlreadyExists [3%N] [4%N]).
Proof. exact across_stops. Qed.

(** What is related in the merged LGR of two. *)
Theorem C38_pair_related : forall on ov, any_order on -> any_order ov -> forall m1 m2 st, proper (mb_lgr m1) -> proper (mb_lgr m2) -> texts_once m1 -> texts_once m2 ->
  unconditional m1 -> unconditional m2 -> get_script m1 <> get_script m2 -> unambiguous when_of [m1; m2] -> unambiguous not_when_of [m1; m2] -> merge_lgr_set on ov [m1; m2] = Ok st ->
  forall a b, has_target (lg_rep (mg_lgr st)) a b <-> gives m1 a b \/ gives m2 a b \/ exists c, between m1 m2 c a b.
Proof. exact crossing_targets. Qed.
Print Assumptions C38_pair_related.
(** Any number of members whose variants have no context rules: in the order of
    the scripts, each must be taken by what is there before it; and what is
    related at the end is what [related_after] says, no more. *)
Theorem C38_in_turn : forall on ov, any_order on -> any_order ov -> forall l,
  (forall m, In m l -> proper (mb_lgr m) /\ texts_once m /\ unconditional m) -> NoDup (map get_script l) -> unambiguous when_of l -> unambiguous not_when_of l ->
  exists l', Permutation l l' /\ in_script_order l' /\
    ((exists st, merge_lgr_set on ov l = Ok st) <-> same_rules when_of l /\ same_rules not_when_of l /\ all_taken no_one nothing l') /\
    (forall st, merge_lgr_set on ov l = Ok st -> forall a b, has_target (lg_rep (mg_lgr st)) a b <-> related_after no_one nothing l' a b).
Proof. exact in_turn. Qed.
Print Assumptions C38_in_turn.
Example C38_in_turn_witness : (exists st, merge_lgr_set given given chain = Ok st) /\ (forall m, In m chain -> proper (mb_lgr m) /\ texts_once m /\ unconditional m) /\
  NoDup (map get_script chain) /\ unambiguous when_of chain /\ unambiguous not_when_of chain /\ in_script_order chain /\ all_taken no_one nothing chain /\ ~ related_after no_one nothing chain [1%N] [4%N].
Proof. exact chain_turns. Qed.
(** The same LGRs under the same scripts, given out differently: other variants. *)
Theorem C38_script_names_refuted : exists l l' st st' a b, Permutation (map mb_lgr l) (map mb_lgr l') /\
  (forall m, In m l \/ In m l' -> proper (mb_lgr m) /\ texts_once m /\ unconditional m /\ complete m) /\
  NoDup (map get_script l) /\ map get_script l = map get_script l' /\ merge_lgr_set given given l = Ok st /\ merge_lgr_set given given l' = Ok st' /\
  ~ has_target (lg_rep (mg_lgr st)) a b /\ has_target (lg_rep (mg_lgr st')) a b.
Proof. exact names_matter. Qed.
Print Assumptions C38_script_names_refuted.

(** The hypotheses are met. *)
Example C38_orders_witness : (forall A, any_order (@given A)) /\ forall A, any_order (@rev A).
Proof. split; [exact given_order|exact rev_order]. Qed.
Example C38_sample_witness : forall m, In m [latin; greek] -> tidy (mb_lgr m).
Proof. exact sample_tidy. Qed.
Example C38_result_witness : shown_merge (merge_given [latin; greek]) [[1]; [2]; [3]; [4]; [21]] = Some (
  [Some (Some "one", ["1"], ["und-Grek-letter"; "sc:Grek"; "und-Latn-vowel"], Some "und-Latn-und-Grek-final", [([2], None); ([3], Some "und-Grek-initial")]);
   Some (None, ["1"; "2"], [], None, [([1], None); ([3], None)]); Some (None, ["0"], ["sc:Grek"], None, [([1], None); ([2], None)]);
   Some (None, [], ["sc:Grek"], None, []); Some (None, ["0"], ["sc:Grek"], None, [])],
  [("0", "ELOT 743"); ("1", "ISO 8859"); ("2", "CLDR")],
  ["und-Grek-final"; "und-Grek-initial"; "und-Latn-und-Grek-final"; "und-Latn-final"; "Common-leading-combining-mark"],
  ["und-Latn-vowels"], 1%nat).
Proof. exact sample_merge. Qed.
Example C38_names_witness : unambiguous when_of [latin; greek] /\ unambiguous not_when_of [latin; greek] /\ (forall m, In m [latin; greek] -> rules_known m).
Proof. exact sample_names. Qed.
Example C38_pair_witness : tidy (mb_lgr left_one) /\ tidy (mb_lgr right_one) /\ unconditional left_one /\ unconditional right_one /\ complete left_one /\ complete right_one /\
  (forall c, has_cp left_one c -> has_cp right_one c -> c = [1]) /\ exists st, merge_given [left_one; right_one] = Ok st /\ targets_of (mg_lgr st) [4] = [[1]; [2]; [3]].
Proof. exact pair_meets. Qed.
