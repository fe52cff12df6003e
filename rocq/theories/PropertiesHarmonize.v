(** Property theorems about harmonize (C37).  Statements only.

    [order] is the order in which the elements of a set come; the theorems hold
    for any. *)
From Verif Require Import Base CharModel RepSpec LgrModel LgrSpec Rfc7940Model ValidateModel ValidateSpec ValidateFinal PopulateModel PopulateSpec PopulateFinal.
From Verif Require Import HarmonizeModel HarmonizeSpec HarmonizeFinal HarmonizeKeep HarmonizeCopy HarmonizeWitness HarmRoot.
Open Scope string_scope.
Open Scope list_scope.

(** On return each LGR is symmetric and transitive, its code points are its own
    and the targets of the pooled variants (its own, and those the other LGR
    gives to common code points), and it relates exactly the code points joined
    by chains of pooled variants.  The code points left for review are those of
    one LGR only. *)
Theorem C37_pooled_and_completed : forall order g1 g2 h1 h2 r1 r2, rearranges order -> tidy g1 -> tidy g2 ->
  harmonize order g1 g2 None = Ok (h1, h2, (r1, r2)) ->
  lgr_reachable h1 /\ lgr_reachable h2 /\ completed (lg_rep g1) (lg_rep g2) (lg_rep h1) /\ completed (lg_rep g2) (lg_rep g1) (lg_rep h2) /\
  only_in (lg_rep g1) (lg_rep g2) r1 /\ only_in (lg_rep g2) (lg_rep g1) r2.
Proof. exact harmonize_ok. Qed.
Print Assumptions C37_pooled_and_completed.

(** If both LGRs were symmetric and transitive, the results agree on the
    variants of every code point they have in common. *)
Theorem C37_agree_partial : forall order g1 g2 h1 h2 rs, rearranges order -> tidy g1 -> tidy g2 ->
  symmetric (lg_rep g1) -> transitive (lg_rep g1) -> symmetric (lg_rep g2) -> transitive (lg_rep g2) ->
  harmonize order g1 g2 None = Ok (h1, h2, rs) ->
  forall a b, a <> b -> lookup (lg_rep h1) a <> None -> lookup (lg_rep h2) a <> None ->
    (has_target (lg_rep h1) a b <-> has_target (lg_rep h2) a b).
Proof. exact harmonize_agree. Qed.
Print Assumptions C37_agree_partial.

(** With a root zone LGR, without those hypotheses. *)
Theorem C37_agree_with_root : forall order g1 g2 z h1 h2 rs, rearranges order -> tidy g1 -> tidy g2 -> tidy z ->
  harmonize order g1 g2 (Some z) = Ok (h1, h2, rs) ->
  forall a b, a <> b -> lookup (lg_rep h1) a <> None -> lookup (lg_rep h2) a <> None ->
    (has_target (lg_rep h1) a b <-> has_target (lg_rep h2) a b).
Proof. exact harmonize_root_agree. Qed.
Print Assumptions C37_agree_with_root.

(** With a root zone LGR each is completed with that one first. *)
Theorem C37_root_first : forall order g1 g2 z h1 h2 r1 r2, rearranges order -> tidy g1 -> tidy g2 -> tidy z ->
  harmonize order g1 g2 (Some z) = Ok (h1, h2, (r1, r2)) ->
  exists m1 m2, completed (lg_rep g1) (lg_rep z) (lg_rep m1) /\ completed (lg_rep g2) (lg_rep z) (lg_rep m2) /\
    completed (lg_rep m1) (lg_rep m2) (lg_rep h1) /\ completed (lg_rep m2) (lg_rep m1) (lg_rep h2) /\
    only_in (lg_rep m1) (lg_rep m2) r1 /\ only_in (lg_rep m2) (lg_rep m1) r2.
Proof. exact harmonize_root_ok. Qed.
Print Assumptions C37_root_first.
(** More exactly, it is harmonizing each with the root zone LGR and then the two
    results, errors included. *)
Theorem C37_root_in_steps : forall order g1 g2 z, rearranges order -> tidy g1 -> tidy g2 -> tidy z ->
  harmonize order g1 g2 (Some z) =
  bind (harmonize order g1 z None) (fun p => bind (harmonize order g2 z None) (fun q => harmonize order (fst (fst p)) (fst (fst q)) None)).
Proof. exact root_in_steps. Qed.
Print Assumptions C37_root_in_steps.

(** No entry, variant, reference or tag is removed. *)
Theorem C37_nothing_removed : forall order g1 g2 root h1 h2 rs, rearranges order -> tidy g1 -> tidy g2 -> (forall z, root = Some z -> tidy z) ->
  harmonize order g1 g2 root = Ok (h1, h2, rs) -> nothing_removed g1 h1 /\ nothing_removed g2 h2.
Proof. exact harmonize_removes_nothing. Qed.
Print Assumptions C37_nothing_removed.

(** What is added: code points marked out-of-repertoire and mapped to
    themselves (those taken over) or bare; plain blocked variants. *)
Theorem C37_only_adds : forall order g1 g2 h1 h2 rs, rearranges order -> tidy g1 -> tidy g2 ->
  harmonize order g1 g2 None = Ok (h1, h2, rs) -> respected g1 g2 h1 /\ respected g2 g1 h2.
Proof. exact harmonize_respects. Qed.
Print Assumptions C37_only_adds.

(** Existing variants are kept (no rule being named by the empty string). *)
Theorem C37_variants_kept_partial : forall order g1 g2 root h1 h2 rs, rearranges order -> tidy g1 -> tidy g2 -> (forall z, root = Some z -> tidy z) ->
  harmonize order g1 g2 root = Ok (h1, h2, rs) -> (neat g1 -> kept g1 h1) /\ (neat g2 -> kept g2 h2).
Proof. exact harmonize_keeps. Qed.
Print Assumptions C37_variants_kept_partial.

(** Harmonizing the results relates nothing more. *)
Theorem C37_again_partial : forall order order' g1 g2 h1 h2 k1 k2 rs qs, rearranges order -> rearranges order' -> tidy g1 -> tidy g2 ->
  symmetric (lg_rep g1) -> transitive (lg_rep g1) -> symmetric (lg_rep g2) -> transitive (lg_rep g2) ->
  harmonize order g1 g2 None = Ok (h1, h2, rs) -> harmonize order' h1 h2 None = Ok (k1, k2, qs) ->
  (forall a, lookup (lg_rep k1) a <> None <-> lookup (lg_rep h1) a <> None) /\ (forall a b, has_target (lg_rep k1) a b <-> has_target (lg_rep h1) a b) /\
  (forall a, lookup (lg_rep k2) a <> None <-> lookup (lg_rep h2) a <> None) /\ (forall a b, has_target (lg_rep k2) a b <-> has_target (lg_rep h2) a b).
Proof. exact harmonize_again. Qed.
Print Assumptions C37_again_partial.

(** The order of the sets makes no difference. *)
Theorem C37_order_irrelevant : forall o o' g1 g2 h1 h2 k1 k2 rs qs, rearranges o -> rearranges o' -> tidy g1 -> tidy g2 ->
  harmonize o g1 g2 None = Ok (h1, h2, rs) -> harmonize o' g1 g2 None = Ok (k1, k2, qs) ->
  (forall a, lookup (lg_rep h1) a <> None <-> lookup (lg_rep k1) a <> None) /\ (forall a b, has_target (lg_rep h1) a b <-> has_target (lg_rep k1) a b) /\
  (forall a, lookup (lg_rep h2) a <> None <-> lookup (lg_rep k2) a <> None) /\ (forall a b, has_target (lg_rep h2) a b <-> has_target (lg_rep k2) a b).
Proof. exact order_irrelevant. Qed.
Print Assumptions C37_order_irrelevant.

(** It succeeds if the variants of all are in order. *)
Theorem C37_succeeds_partial : forall order g1 g2 root, rearranges order -> tidy g1 -> tidy g2 -> (forall z, root = Some z -> tidy z /\ plain_variants z) ->
  plain_variants g1 -> plain_variants g2 -> exists p, harmonize order g1 g2 root = Ok p.
Proof. exact harmonize_succeeds. Qed.
Print Assumptions C37_succeeds_partial.

(** The results have no database. *)
Theorem C37_no_database : forall order g1 g2 root h1 h2 rs, rearranges order -> tidy g1 -> tidy g2 -> (forall z, root = Some z -> tidy z) ->
  harmonize order g1 g2 root = Ok (h1, h2, rs) -> lg_db h1 = None /\ lg_db h2 = None.
Proof. exact harmonize_no_database. Qed.
Print Assumptions C37_no_database.

(** If one is symmetric but not transitive, the results can disagree on code
    points both LGRs had. *)
Theorem C37_disagree_not_transitive_refuted : exists g1 g2 a b h1 h2 rs, tidy g1 /\ tidy g2 /\ symmetric (lg_rep g1) /\ symmetric (lg_rep g2) /\
  harmonize as_is g1 g2 None = Ok (h1, h2, rs) /\ lookup (lg_rep g1) a <> None /\ lookup (lg_rep g1) b <> None /\ lookup (lg_rep g2) a <> None /\ lookup (lg_rep g2) b <> None /\
  has_target (lg_rep h1) a b /\ ~ has_target (lg_rep h2) a b.
Proof. exact disagree_symmetric. Qed.
Print Assumptions C37_disagree_not_transitive_refuted.

(** The same if one is transitive but not symmetric. *)
Theorem C37_disagree_not_symmetric_refuted : exists g1 g2 a b h1 h2 rs, tidy g1 /\ tidy g2 /\ transitive (lg_rep g1) /\ transitive (lg_rep g2) /\
  harmonize as_is g1 g2 None = Ok (h1, h2, rs) /\ lookup (lg_rep g1) a <> None /\ lookup (lg_rep g1) b <> None /\ lookup (lg_rep g2) a <> None /\ lookup (lg_rep g2) b <> None /\
  has_target (lg_rep h1) a b /\ ~ has_target (lg_rep h2) a b.
Proof. exact disagree_transitive. Qed.
Print Assumptions C37_disagree_not_symmetric_refuted.

(** So a code point can be taken over that the LGR, which refuses code points
    its database finds invalid, would not accept. *)
Theorem C37_refuses_refuted : exists g1 g2 h1 h2 rs x, tidy g1 /\ tidy g2 /\ lg_raise g2 = true /\ idna_invalid g2 x /\
  harmonize as_is g1 g2 None = Ok (h1, h2, rs) /\ lookup (lg_rep h2) [x] <> None.
Proof. exact taken_anyway. Qed.
Print Assumptions C37_refuses_refuted.

(** A version that has a comment is not marked as harmonized. *)
Theorem C37_version_unmarked_refuted : exists c, harmonized_comment (Some c) = Some c /\ forall d, (d ++ " - Harmonized")%string <> c.
Proof. exact comment_unmarked. Qed.
Print Assumptions C37_version_unmarked_refuted.

(** Two LGRs meeting all hypotheses: 1 and 5 are common, the second has a
    range; and what comes out, for the variants of 1, 2, 3, 5 and 6 7. *)
Example C37_nontrivial : rearranges as_is /\ rearranges (@rev cps) /\
  (tidy (lgr_of first_ops) /\ tidy (lgr_of second_ops) /\ plain_variants (lgr_of first_ops) /\ plain_variants (lgr_of second_ops) /\
   symmetric (lg_rep (lgr_of first_ops)) /\ transitive (lg_rep (lgr_of first_ops)) /\ symmetric (lg_rep (lgr_of second_ops)) /\ transitive (lg_rep (lgr_of second_ops))) /\
  shown (harmonize as_is (lgr_of first_ops) (lgr_of second_ops) None) [[1]; [2]; [3]; [5]; [6; 7]] =
  Some ([[[2]; [3]]; [[1]; [3]]; [[1]; [2]; [3]]; [[6; 7]]; [[5]; [6; 7]]],
        [[[2]; [3]]; [[1]; [2]; [3]]; [[1]; [2]]; [[6; 7]]; [[5]]],
        ([[2]], [[3]; [6; 7]; [20]; [21]; [22]])) /\
  shown (harmonize (@rev cps) (lgr_of one_way) (lgr_of two_alone) (Some (lgr_of second_ops))) [[1]; [2]; [3]] =
  Some ([[[2]; [3]]; [[1]; [3]]; [[1]; [2]]], [[[2]; [3]]; [[1]; [2]; [3]]; [[1]; [2]]], ([[2]], [])).
Proof. split; [exact as_is_rearranges|]. split; [exact rev_rearranges|]. split; [exact sample_meets|]. split; [exact sample_result|exact root_result]. Qed.
