(** Property theorems about populate_lgr (C26).  Statements only. *)
From Verif Require Import Base CharModel RepSpec LgrModel LgrSpec Rfc7940Model ValidateModel ValidateSpec ValidateFinal PopulateModel PopulateSpec PopulateFinal PopulateAgain.
Open Scope string_scope.
Open Scope list_scope.

(** On return the LGR is symmetric and transitive; its entries are those it had
    and the targets of its variants; its mappings relate exactly the code points
    linked by chains of variants (a mapping onto itself only if it was there). *)
Theorem C26_symmetric_and_transitive : forall g g', lgr_reachable g -> populate g = (g', Ok tt) ->
  symmetric (lg_rep g') /\ transitive (lg_rep g') /\
  (forall a, lookup (lg_rep g') a <> None <-> mentioned (lg_rep g) a) /\
  (forall a b, has_target (lg_rep g') a b <->
     (a <> b /\ linked (lg_rep g) a b) \/ (a = b /\ (has_target (lg_rep g) a a))).
Proof. exact populate_completes. Qed.
Print Assumptions C26_symmetric_and_transitive.

(** It always ends, with success or an LGR exception (running out of fuel is
    not one); either way no entry is removed or altered but for its variants,
    new entries are bare targets, and new mappings are blocked, between linked
    code points. *)
Theorem C26_terminates_and_only_adds : forall g g' o, lgr_reachable g -> populate g = (g', o) ->
  lgr_reachable g' /\
  (forall e, o = Raise e -> is_lgr_exception e = true) /\
  lg_db g' = lg_db g /\ lg_raise g' = lg_raise g /\ lg_refs g' = lg_refs g /\ lg_tags g' = lg_tags g /\
  rep_ranges (lg_rep g') = rep_ranges (lg_rep g) /\
  (forall a ch, lookup (lg_rep g) a = Some ch -> exists ch', lookup (lg_rep g') a = Some ch' /\ same_entry ch ch') /\
  (forall a ch', lookup (lg_rep g') a = Some ch' -> lookup (lg_rep g) a = None -> same_entry (bare a) ch' /\ mentioned (lg_rep g) a) /\
  (forall a b, has_target (lg_rep g') a b -> has_target (lg_rep g) a b \/ (a <> b /\ linked (lg_rep g) a b)) /\
  (forall a b w, mapping (lg_rep g') a b w -> (exists v, mapping (lg_rep g) a b v /\ alike v w) \/ plain_blocked w).
Proof. exact populate_respects. Qed.
Print Assumptions C26_terminates_and_only_adds.

(** Existing variants keep their type, comment and references, and their rules
    if they had any (a variant without rule may be given one). *)
Theorem C26_variants_kept_partial : forall g g', lgr_reachable g -> neat g -> populate g = (g', Ok tt) ->
  forall a b v, mapping (lg_rep g) a b v -> exists w, mapping (lg_rep g') a b w /\ alike v w /\ (w = v \/ unconditional v).
Proof. exact populate_keeps_variants. Qed.
Print Assumptions C26_variants_kept_partial.

Theorem C26_succeeds_partial : forall g, lgr_reachable g -> populatable g -> exists g', populate g = (g', Ok tt).
Proof. exact populate_succeeds. Qed.
Print Assumptions C26_succeeds_partial.

(** An LGR with nothing to complete is left as it is. *)
Theorem C26_complete_lgr_unchanged : forall g, lgr_reachable g ->
  symmetric (lg_rep g) -> transitive (lg_rep g) -> rules_mirrored (lg_rep g) -> populate g = (g, Ok tt).
Proof. exact populate_idle. Qed.
Print Assumptions C26_complete_lgr_unchanged.

(** Populating is idempotent. *)
Theorem C26_idempotent : forall g g', lgr_reachable g -> populate g = (g', Ok tt) -> populate g' = (g', Ok tt).
Proof. exact populate_twice. Qed.
Print Assumptions C26_idempotent.
(** Exactly these LGRs are left as they are; the rules of the two directions may
    differ, but a rule one way goes with a rule of the same kind the other way. *)
Theorem C26_fixed_points : forall g, lgr_reachable g ->
  (populate g = (g, Ok tt) <-> symmetric (lg_rep g) /\ transitive (lg_rep g) /\ rules_both_ways (lg_rep g)).
Proof. exact populate_fixed_iff. Qed.
Print Assumptions C26_fixed_points.
Theorem C26_rules_both_ways : forall g g', lgr_reachable g -> populate g = (g', Ok tt) -> rules_both_ways (lg_rep g').
Proof. exact populate_rules_both_ways. Qed.
Print Assumptions C26_rules_both_ways.

(** A variant onto a member of a range makes it fail. *)
Theorem C26_range_target_refuted : exists g e, lgr_reachable g /\ snd (populate g) = Raise e.
Proof. exact range_target_fails. Qed.
Print Assumptions C26_range_target_refuted.

(** A failing run can remove a mapping. *)
Theorem C26_mapping_lost_refuted : exists g a b, lgr_reachable g /\
  has_target (lg_rep g) a b /\ ~ has_target (lg_rep (fst (populate g))) a b.
Proof. exact mapping_lost. Qed.
Print Assumptions C26_mapping_lost_refuted.

(** With a rule named by the empty string a successful run can remove a variant. *)
Theorem C26_type_lost_refuted : exists g g' a b v, lgr_reachable g /\ populate g = (g', Ok tt) /\ mapping (lg_rep g) a b v /\
  forall w, mapping (lg_rep g') a b w -> v_type w <> v_type v.
Proof. exact type_lost. Qed.
Print Assumptions C26_type_lost_refuted.

(** Rules need not be symmetric afterwards. *)
Theorem C26_rules_not_mirrored_refuted : exists g g', lgr_reachable g /\ populate g = (g', Ok tt) /\ ~ rules_mirrored (lg_rep g').
Proof. exact rules_clash. Qed.
Print Assumptions C26_rules_not_mirrored_refuted.

Example C26_nontrivial : lgr_reachable (lgr_of chain_ops) /\ populatable (lgr_of chain_ops) /\ neat (lgr_of chain_ops) /\
  let '(g', o) := populate (lgr_of chain_ops) in
  o = Ok tt /\ targets_of g' [1] = [[2]; [3; 4]] /\ targets_of g' [2] = [[1]; [3; 4]] /\ targets_of g' [3; 4] = [[1]; [2]] /\
  g' <> lgr_of chain_ops /\ fst (populate g') = g'.
Proof. split; [apply lgr_of_reachable|]. split; [apply chain_populatable|]. split; [apply chain_populatable|exact chain_result]. Qed.
(** Idempotence also holds where the rules of the two directions differ. *)
Example C26_idempotent_nontrivial : exists g g', lgr_reachable g /\ populate g = (g', Ok tt) /\ ~ rules_mirrored (lg_rep g') /\
  rules_both_ways (lg_rep g') /\ populate g' = (g', Ok tt).
Proof.
  destruct rules_clash as [g [g' [H1 [H2 H3]]]]. exists g, g'.
  exact (conj H1 (conj H2 (conj H3 (conj (populate_rules_both_ways g g' H1 H2) (populate_twice g g' H1 H2))))).
Qed.
