(** C28: the union and the intersection of two LGRs. *)
From Verif Require Import Base CharModel RepSpec UtilsModel RefModel ActionModel LgrModel LgrSpec MetaModel CompareModel CompareSpec CompareFinal CompareWitness.
Open Scope string_scope.
Open Scope list_scope.

(** LGRs edited without force meet the conditions below. *)
Theorem C28_unforced_inputs : forall db allow ops, (forall x, In x ops -> unforced x) -> orderly (fst (lgr_run (new_lgr db allow) ops)).
Proof. exact unforced_orderly. Qed.
Print Assumptions C28_unforced_inputs.
Example C28_inputs_met : input_ok doc_a /\ input_ok doc_b /\ permutes backwards.
Proof. exact (conj doc_a_ok (conj doc_b_ok backwards_permutes)). Qed.

(** The union always succeeds; its inputs have their ranges spelled out, nothing else. *)
Theorem C28_union_total : forall o today d1 d2, permutes o -> input_ok d1 -> input_ok d2 ->
  exists d1' d2' d, union_lgrs o today d1 d2 = (d1', d2', Ok d) /\ only_expanded d1 d1' /\ only_expanded d2 d2' /\
    lgr_reachable (doc_lgr d).
Proof. exact union_total. Qed.
Print Assumptions C28_union_total.
Theorem C28_intersection_total : forall o today d1 d2, permutes o -> input_ok d1 -> input_ok d2 ->
  exists d1' d2' d, intersect_lgrs o today d1 d2 = (d1', d2', Ok d) /\ only_expanded d1 d1' /\ only_expanded d2 d2' /\
    lgr_reachable (doc_lgr d).
Proof. exact intersect_total. Qed.
Print Assumptions C28_intersection_total.

Theorem C28_union_codepoints : forall o today d1 d2 d, permutes o -> input_ok d1 -> input_ok d2 -> union_is o today d1 d2 d ->
  forall c, entry_of d c <> None <-> entry_of d1 c <> None \/ entry_of d2 c <> None.
Proof. exact union_codepoints. Qed.
Print Assumptions C28_union_codepoints.
Example C28_union_sample : union_is backwards today doc_a doc_b u_ab /\
  map ch_cp (rep_iter (lg_rep (doc_lgr u_ab))) = [[1]; [2]; [3]; [7; 8]; [20]; [21]; [22]; [23]; [24]].
Proof. split; [exact u_ab_is|vm_compute; reflexivity]. Qed.

Theorem C28_intersection_codepoints : forall o today d1 d2 d, permutes o -> input_ok d1 -> input_ok d2 -> intersection_is o today d1 d2 d ->
  forall c, entry_of d c <> None <-> entry_of d1 c <> None /\ entry_of d2 c <> None.
Proof. exact inter_codepoints. Qed.
Print Assumptions C28_intersection_codepoints.
Example C28_intersection_sample : intersection_is backwards today doc_a doc_b i_ab /\
  map ch_cp (rep_iter (lg_rep (doc_lgr i_ab))) = [[1]; [7; 8]; [22]; [23]].
Proof. split; [exact i_ab_is|vm_compute; reflexivity]. Qed.

Theorem C28_union_tags : forall o today d1 d2 d, permutes o -> input_ok d1 -> input_ok d2 -> union_is o today d1 d2 d ->
  forall c t, has_tag (entry_of d c) t <-> has_tag (entry_of d1 c) t \/ has_tag (entry_of d2 c) t.
Proof. exact union_tags. Qed.
Print Assumptions C28_union_tags.
Theorem C28_intersection_tags : forall o today d1 d2 d, permutes o -> input_ok d1 -> input_ok d2 -> intersection_is o today d1 d2 d ->
  forall c t, has_tag (entry_of d c) t <-> has_tag (entry_of d1 c) t /\ has_tag (entry_of d2 c) t.
Proof. exact inter_tags. Qed.
Print Assumptions C28_intersection_tags.
Example C28_tags_sample : option_map ch_tags (entry_of u_ab [1]) = Some ["w"; "u"; "t"] /\ option_map ch_tags (entry_of i_ab [1]) = Some ["u"].
Proof. vm_compute. split; reflexivity. Qed.

(** Variants, without their references, of the code points of the second LGR:
    those of the first, then those of the second with another target or
    context.  Missing: the code points of the first LGR only, see below. *)
Theorem C28_union_variants_partial : forall o today d1 d2 d, permutes o -> input_ok d1 -> input_ok d2 -> union_is o today d1 d2 d ->
  forall c, entry_of d2 c <> None ->
  forall u, has_variant (entry_of d c) u <->
    exists v, u = unreferenced v /\
      (has_variant (entry_of d1 c) v \/ (has_variant (entry_of d2 c) v /\ ~ has_vkey (entry_of d1 c) (vkey v))).
Proof. exact union_variants_of. Qed.
Print Assumptions C28_union_variants_partial.
Example C28_union_variants_sample : entry_of doc_b [1] <> None /\ entry_of doc_b [3] <> None /\
  vkeys (entry_of u_ab [1]) = [([2], None, None); ([3], None, None); ([7; 8], Some "r", None)] /\ vkeys (entry_of u_ab [3]) = [([1], None, None)].
Proof. vm_compute. repeat split; discriminate. Qed.
(** Full statement refuted: the variants of a code point of the first LGR only
    are dropped, those of a code point of the second only are kept. *)
Theorem C28_union_variants_refuted : exists o t d1 d2 d d' c k, permutes o /\ input_ok d1 /\ input_ok d2 /\
  union_is o t d1 d2 d /\ union_is o t d2 d1 d' /\
  has_vkey (entry_of d1 c) k /\ ~ has_vkey (entry_of d c) k /\ has_vkey (entry_of d' c) k.
Proof. exact union_variants_refuted. Qed.
Print Assumptions C28_union_variants_refuted.
Theorem C28_union_first_only_variants_lost : forall o today d1 d2 d, permutes o -> input_ok d1 -> input_ok d2 -> union_is o today d1 d2 d ->
  forall c, entry_of d2 c = None -> forall u, ~ has_variant (entry_of d c) u.
Proof. exact union_first_only_variants. Qed.
Print Assumptions C28_union_first_only_variants_lost.

Theorem C28_intersection_variants : forall o today d1 d2 d, permutes o -> input_ok d1 -> input_ok d2 -> intersection_is o today d1 d2 d ->
  forall c k, has_vkey (entry_of d c) k <-> has_vkey (entry_of d1 c) k /\ has_vkey (entry_of d2 c) k.
Proof. exact inter_variant_keys. Qed.
Print Assumptions C28_intersection_variants.
Example C28_intersection_variants_sample : vkeys (entry_of i_ab [1]) = [([7; 8], Some "r", None)].
Proof. vm_compute. reflexivity. Qed.
(** ... but a variant common to both loses its type, even when both agree on it. *)
Theorem C28_intersection_types_refuted : exists o t d1 d c v u, permutes o /\ input_ok d1 /\ intersection_is o t d1 d1 d /\
  has_variant (entry_of d1 c) v /\ v_type v = Some "blocked" /\ has_variant (entry_of d c) u /\ vkey u = vkey v /\ v_type u = None /\
  forall z, has_variant (entry_of d c) z -> v_type z = None.
Proof. exact inter_types_refuted. Qed.
Print Assumptions C28_intersection_types_refuted.

(** The context rules of a code point in one of the LGRs are kept.  Missing:
    the code points in both, see below. *)
Theorem C28_union_contexts_partial : forall o today d1 d2 d, permutes o -> input_ok d1 -> input_ok d2 -> union_is o today d1 d2 d ->
  forall c a, (entry_of d1 c = Some a /\ entry_of d2 c = None) \/ (entry_of d1 c = None /\ entry_of d2 c = Some a) ->
  exists ch, entry_of d c = Some ch /\ ch_when ch = ch_when a /\ ch_not_when ch = ch_not_when a /\ ch_comment ch = ch_comment a.
Proof. exact union_contexts. Qed.
Print Assumptions C28_union_contexts_partial.
Example C28_union_contexts_sample : exists a, entry_of doc_a [2] = Some a /\ entry_of doc_b [2] = None.
Proof. eexists. split; vm_compute; reflexivity. Qed.
Theorem C28_union_contexts_refuted : exists o t d1 d2 d c a b ch, permutes o /\ input_ok d1 /\ input_ok d2 /\ union_is o t d1 d2 d /\
  entry_of d1 c = Some a /\ entry_of d2 c = Some b /\ ch_when a = Some "r" /\ ch_when b = Some "r" /\
  entry_of d c = Some ch /\ ch_when ch = None /\ ch_not_when ch = None.
Proof. exact union_contexts_refuted. Qed.
Print Assumptions C28_union_contexts_refuted.

(** The comments of a code point in both are kept. *)
Theorem C28_union_comments : forall o today d1 d2 d, permutes o -> input_ok d1 -> input_ok d2 -> union_is o today d1 d2 d ->
  forall c a b, entry_of d1 c = Some a -> entry_of d2 c = Some b ->
  exists ch, entry_of d c = Some ch /\ joined (ch_comment a) (ch_comment b) (ch_comment ch).
Proof. exact union_comments. Qed.
Print Assumptions C28_union_comments.
Theorem C28_intersection_comments : forall o today d1 d2 d, permutes o -> input_ok d1 -> input_ok d2 -> intersection_is o today d1 d2 d ->
  forall c a b, entry_of d1 c = Some a -> entry_of d2 c = Some b ->
  exists ch, entry_of d c = Some ch /\ joined (ch_comment a) (ch_comment b) (ch_comment ch).
Proof. exact inter_comments. Qed.
Print Assumptions C28_intersection_comments.
Example C28_comments_sample : exists a b, entry_of doc_a [1] = Some a /\ entry_of doc_b [1] = Some b.
Proof. eexists. eexists. split; vm_compute; reflexivity. Qed.

(** The actions of the union decide every label as those of the first followed
    by those of the second; whatever the rules say and the variant types are. *)
Theorem C28_union_actions : forall o today d1 d2 d, permutes o -> input_ok d1 -> input_ok d2 -> union_is o today d1 d2 d ->
  forall rm label ds only, fst (apply_actions rm (doc_actions d) label ds only) = fst (apply_actions rm (doc_actions d1 ++ doc_actions d2) label ds only).
Proof. exact union_action_verdict. Qed.
Print Assumptions C28_union_actions.
Theorem C28_union_action_set : forall o today d1 d2 d, permutes o -> input_ok d1 -> input_ok d2 -> union_is o today d1 d2 d ->
  (forall a, In a (doc_actions d) -> In a (doc_actions d1) \/ In a (doc_actions d2)) /\
  (forall a, In a (doc_actions d1) \/ In a (doc_actions d2) -> exists b, same_action a b /\ In b (doc_actions d)).
Proof. exact union_actions_once. Qed.
Print Assumptions C28_union_action_set.
Example C28_union_actions_sample : doc_actions u_ab = [act "invalid" (Some "r"); act "blocked" None; act "valid" (Some "s")].
Proof. vm_compute. reflexivity. Qed.
(** The list of action texts is not kept in step with the list of actions. *)
Theorem C28_union_action_texts_refuted : exists o t d1 d2 d, permutes o /\ input_ok d1 /\ input_ok d2 /\ union_is o t d1 d2 d /\
  length (doc_actions d) <> length (doc_actions_xml d).
Proof. exact union_actions_refuted. Qed.
Print Assumptions C28_union_action_texts_refuted.
Theorem C28_intersection_action_set : forall o today d1 d2 d, permutes o -> input_ok d1 -> input_ok d2 -> intersection_is o today d1 d2 d ->
  (forall a, In a (doc_actions d) -> (exists b, In b (doc_actions d1) /\ same_action a b) /\ (exists b, In b (doc_actions d2) /\ same_action a b)) /\
  (forall a b, In a (doc_actions d1) -> In b (doc_actions d2) -> same_action a b -> exists c, In c (doc_actions d) /\ same_action a c).
Proof. exact inter_action_set. Qed.
Print Assumptions C28_intersection_action_set.
(** The order of the actions is lost, hence their precedence, even when an LGR
    is intersected with itself. *)
Theorem C28_intersection_actions_refuted : exists o t d1 d rm label ds only, permutes o /\ input_ok d1 /\ intersection_is o t d1 d1 d /\
  fst (apply_actions rm (doc_actions d1) label ds only) = Some "invalid" /\
  fst (apply_actions rm (doc_actions d) label ds only) = Some "blocked".
Proof. exact inter_actions_refuted. Qed.
Print Assumptions C28_intersection_actions_refuted.

(** Languages; the validity period is the overlap of the two. *)
Theorem C28_union_metadata : forall o today d1 d2 d, permutes o -> input_ok d1 -> input_ok d2 -> union_is o today d1 d2 d ->
  (forall l, In l (md_languages (doc_meta d)) <-> In l (md_languages (doc_meta d1)) \/ In l (md_languages (doc_meta d2))) /\
  NoDup (md_languages (doc_meta d)) /\
  latest (md_start (doc_meta d1)) (md_start (doc_meta d2)) (md_start (doc_meta d)) /\
  earliest (md_end (doc_meta d1)) (md_end (doc_meta d2)) (md_end (doc_meta d)) /\
  latest (md_unicode (doc_meta d1)) (md_unicode (doc_meta d2)) (md_unicode (doc_meta d)) /\
  md_date (doc_meta d) = Some today.
Proof. exact union_metadata_of. Qed.
Print Assumptions C28_union_metadata.
Theorem C28_intersection_metadata : forall o today d1 d2 d, permutes o -> input_ok d1 -> input_ok d2 -> intersection_is o today d1 d2 d ->
  (forall l, In l (md_languages (doc_meta d)) <-> In l (md_languages (doc_meta d1)) /\ In l (md_languages (doc_meta d2))) /\
  NoDup (md_languages (doc_meta d)) /\
  latest (md_start (doc_meta d1)) (md_start (doc_meta d2)) (md_start (doc_meta d)) /\
  earliest (md_end (doc_meta d1)) (md_end (doc_meta d2)) (md_end (doc_meta d)) /\
  latest (md_unicode (doc_meta d1)) (md_unicode (doc_meta d2)) (md_unicode (doc_meta d)) /\
  md_date (doc_meta d) = Some today.
Proof. exact inter_metadata_of. Qed.
Print Assumptions C28_intersection_metadata.
Example C28_metadata_sample : md_start (doc_meta u_ab) = Some (txt "2021-01-01") /\ md_end (doc_meta u_ab) = Some (txt "2022-01-01") /\
  length (md_languages (doc_meta u_ab)) = 3%nat /\ md_languages (doc_meta i_ab) = [txt "fr"].
Proof. vm_compute. repeat split. Qed.
Theorem C28_union_metadata_refuted : exists o t d1 d2 d, permutes o /\ input_ok d1 /\ input_ok d2 /\ union_is o t d1 d2 d /\
  (exists s, In s (md_scopes (doc_meta d2)) /\ ~ In s (md_scopes (doc_meta d))) /\
  md_version (doc_meta d1) = None /\ md_version (doc_meta d2) <> None /\ md_version (doc_meta d) = None /\
  md_description (doc_meta d2) <> None /\ md_description (doc_meta d) = None.
Proof. exact union_metadata_refuted. Qed.
Print Assumptions C28_union_metadata_refuted.
Theorem C28_intersection_scopes_refuted : exists o t d1 d2 d, permutes o /\ input_ok d1 /\ input_ok d2 /\ intersection_is o t d1 d2 d /\
  exists s, In s (md_scopes (doc_meta d)) /\ ~ In s (md_scopes (doc_meta d2)).
Proof. exact inter_metadata_refuted. Qed.
Print Assumptions C28_intersection_scopes_refuted.

(** Reference texts. *)
Theorem C28_union_references : forall o today d1 d2 d, permutes o -> input_ok d1 -> input_ok d2 -> union_is o today d1 d2 d ->
  NoDup (ref_values (lg_refs (doc_lgr d))) /\
  forall v, In v (ref_values (lg_refs (doc_lgr d))) <-> In v (ref_values (lg_refs (doc_lgr d1))) \/ In v (ref_values (lg_refs (doc_lgr d2))).
Proof. exact union_references. Qed.
Print Assumptions C28_union_references.
Theorem C28_intersection_references : forall o today d1 d2 d, permutes o -> input_ok d1 -> input_ok d2 -> intersection_is o today d1 d2 d ->
  NoDup (ref_values (lg_refs (doc_lgr d))) /\
  forall v, In v (ref_values (lg_refs (doc_lgr d))) <-> In v (ref_values (lg_refs (doc_lgr d1))) /\ In v (ref_values (lg_refs (doc_lgr d2))).
Proof. exact inter_references. Qed.
Print Assumptions C28_intersection_references.
Example C28_references_sample : ref_values (lg_refs (doc_lgr u_ab)) = ["page"; "book"] /\ ref_values (lg_refs (doc_lgr i_ab)) = ["page"].
Proof. vm_compute. split; reflexivity. Qed.

(** Rules defined in one LGR only, or with the same text in both, are kept;
    nothing else appears but renamed versions of conflicting rules. *)
Theorem C28_union_rules_partial : forall o today d1 d2 d, permutes o -> input_ok d1 -> input_ok d2 -> union_is o today d1 d2 d ->
  forall n x, (text_of (doc_rules d1) (doc_rules_xml d1) n = Some x /\ text_of (doc_rules d2) (doc_rules_xml d2) n = Some x) \/
    (text_of (doc_rules d1) (doc_rules_xml d1) n = Some x /\ ~ In n (doc_rules d2)) \/
    (text_of (doc_rules d2) (doc_rules_xml d2) n = Some x /\ ~ In n (doc_rules d1)) ->
  In (n, x) (combine (doc_rules d) (doc_rules_xml d)).
Proof. exact union_rules_kept. Qed.
Print Assumptions C28_union_rules_partial.
Theorem C28_union_rules_origin : forall o today d1 d2 d, permutes o -> input_ok d1 -> input_ok d2 -> union_is o today d1 d2 d ->
  length (doc_rules d) = length (doc_rules_xml d) /\
  forall m x, In (m, x) (combine (doc_rules d) (doc_rules_xml d)) ->
    (text_of (doc_rules d1) (doc_rules_xml d1) m = Some x) \/ (text_of (doc_rules d2) (doc_rules_xml d2) m = Some x) \/
    exists n a b, text_of (doc_rules d1) (doc_rules_xml d1) n = Some a /\ text_of (doc_rules d2) (doc_rules_xml d2) n = Some b /\ a <> b /\
      (m = (n ++ "_1")%string \/ m = (n ++ "_2")%string).
Proof. exact union_rules_origin. Qed.
Print Assumptions C28_union_rules_origin.
Example C28_union_rules_sample : combine (doc_rules u_ab) (doc_rules_xml u_ab) = [("r_1", "x"); ("r_2", "x'"); ("s", "y"); ("q", "z")].
Proof. vm_compute. reflexivity. Qed.
(** Renaming leaves the references to the rule behind, may hit an existing
    name, and rewrites the text of the rule blindly. *)
Theorem C28_union_rules_refuted : exists o t d1 d2 d c a, permutes o /\ input_ok d1 /\ input_ok d2 /\ union_is o t d1 d2 d /\
  In "r" (doc_rules d1) /\ In "r" (doc_rules d2) /\ entry_of d c = Some a /\
  (exists v, In v (get_variants a) /\ v_when v = Some "r") /\ ~ In "r" (doc_rules d).
Proof. exact union_rules_refuted. Qed.
Print Assumptions C28_union_rules_refuted.
Theorem C28_union_rule_names_refuted : exists o t d1 d2 d, permutes o /\ input_ok d1 /\ input_ok d2 /\ union_is o t d1 d2 d /\
  NoDup (doc_rules d1) /\ NoDup (doc_rules d2) /\ ~ NoDup (doc_rules d).
Proof. exact union_rule_names_refuted. Qed.
Print Assumptions C28_union_rule_names_refuted.
Theorem C28_union_rule_text_refuted : exists o t d1 d2 d, permutes o /\ input_ok d1 /\ input_ok d2 /\ union_is o t d1 d2 d /\
  In ("r", "<rule name=""r"">1</rule>") (combine (doc_rules d1) (doc_rules_xml d1)) /\
  In ("r_1", "<r_1ule name=""r_1"">1</r_1ule>") (combine (doc_rules d) (doc_rules_xml d)).
Proof. exact union_rule_text_refuted. Qed.
Print Assumptions C28_union_rule_text_refuted.
