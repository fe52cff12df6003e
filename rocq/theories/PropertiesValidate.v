(** Property theorems about validation: symmetry, transitivity, conditional
    variants, the driver and the statistics (C24, C25, C35, C36, C45, C54).
    Statements only. *)
From Verif Require Import Base CharModel RepSpec LgrModel LgrSpec Rfc7940Model Rfc7940Spec VarSetSpec ValidateModel ValidateSpec ValidateProofs StatsProofs StatsNamed LgrTypes ValidateFinal.
Open Scope string_scope.
Open Scope list_scope.

(** C24: ignoring rules, success means symmetry. *)
Theorem C24_symmetry_decided : forall g, lgr_reachable g ->
  (exists rs issues, check_symmetry g true = (rs, Ok (true, issues))) <-> symmetric (lg_rep g).
Proof. exact check_symmetry_decides. Qed.
Print Assumptions C24_symmetry_decided.

Theorem C24_symmetry_with_rules_decided : forall g, lgr_reachable g ->
  (exists rs issues, check_symmetry g false = (rs, Ok (true, issues))) <->
  symmetric (lg_rep g) /\ rules_mirrored (lg_rep g).
Proof. exact check_symmetry_decides_rules. Qed.
Print Assumptions C24_symmetry_with_rules_decided.

(** It never raises; its issues are exactly the violating mappings; what is
    recorded as failed is exactly what has an issue. *)
Theorem C24_symmetry_issues : forall g, lgr_reachable g -> forall ignore_rules,
  exists rs ok issues, check_symmetry g ignore_rules = (rs, Ok (ok, issues)) /\
    (ok = true <-> issues = []) /\
    (forall ch v p, In (ch, v, p) issues <->
       lookup (lg_rep g) (ch_cp ch) = Some ch /\ In v (get_variants ch) /\
       sym_violation (lg_rep g) ignore_rules (ch_cp ch) v p) /\
    executed rs "basic_symmetry" /\ executed rs "strict_symmetry" /\
    (forall t, failed rs t <-> exists ch v p, In (ch, v, p) issues /\
        t = match p with SymNotInRepertoire | SymMissing => "basic_symmetry" | _ => "strict_symmetry" end).
Proof. exact check_symmetry_issues. Qed.
Print Assumptions C24_symmetry_issues.

Theorem C24_basic_verdict_recorded : forall g ignore_rules, lgr_reachable g ->
  let t := apply_reports [] (fst (check_symmetry g ignore_rules)) in
  (dget String.eqb "basic_symmetry" t = Some true <-> symmetric (lg_rep g)) /\
  dget String.eqb "basic_symmetry" t <> None /\ dget String.eqb "strict_symmetry" t <> None.
Proof. exact check_symmetry_recorded. Qed.
Print Assumptions C24_basic_verdict_recorded.

(** The strict verdict is right when rules are examined and symmetry holds;
    missing: the two cases refuted below. *)
Theorem C24_strict_verdict_recorded_partial : forall g, lgr_reachable g -> symmetric (lg_rep g) ->
  (dget String.eqb "strict_symmetry" (apply_reports [] (fst (check_symmetry g false))) = Some true <->
   rules_mirrored (lg_rep g)).
Proof. exact strict_recorded. Qed.
Print Assumptions C24_strict_verdict_recorded_partial.

Theorem C24_strict_untested_recorded_refuted : exists g, lgr_reachable g /\ ~ rules_mirrored (lg_rep g) /\
  dget String.eqb "strict_symmetry" (apply_reports [] (fst (check_symmetry g true))) = Some true.
Proof. exact strict_recorded_untested. Qed.
Print Assumptions C24_strict_untested_recorded_refuted.

Theorem C24_strict_asymmetric_recorded_refuted : exists g, lgr_reachable g /\ ~ symmetric (lg_rep g) /\
  dget String.eqb "strict_symmetry" (apply_reports [] (fst (check_symmetry g false))) = Some true.
Proof. exact strict_recorded_asymmetric. Qed.
Print Assumptions C24_strict_asymmetric_recorded_refuted.

Example C24_nontrivial : lgr_reachable (lgr_of tri_ops) /\ variant_pairs (lgr_of tri_ops) <> [] /\
  (exists rs is, check_symmetry (lgr_of tri_ops) false = (rs, Ok (true, is))) /\
  (exists rs is, check_symmetry (lgr_of [lcp [1]; lcp [2]; lvar [1] [2]]) true = (rs, Ok (false, is))).
Proof.
  split; [apply lgr_of_reachable|]. split; [vm_compute; discriminate|].
  split; vm_compute; eexists; eexists; reflexivity.
Qed.

(** C25 *)
Theorem C25_transitivity_decided : forall g, lgr_reachable g ->
  exists rs ok issues, check_transitivity g = (rs, Ok (ok, issues)) /\
    (ok = true <-> transitive (lg_rep g)) /\
    (forall ch w, In (ch, w) issues <-> lookup (lg_rep g) (ch_cp ch) = Some ch /\
       exists b, has_target (lg_rep g) (ch_cp ch) b /\ mapping (lg_rep g) b (v_cp w) w /\
                 v_cp w <> ch_cp ch /\ ~ has_target (lg_rep g) (ch_cp ch) (v_cp w)) /\
    executed rs "basic_transitivity" /\
    (failed rs "basic_transitivity" <-> exists a c, gap (lg_rep g) a c).
Proof. exact check_transitivity_spec. Qed.
Print Assumptions C25_transitivity_decided.

(** The recorded verdict is right when all variants are in the LGR; missing:
    the case refuted below. *)
Theorem C25_verdict_recorded_partial : forall g, lgr_reachable g ->
  (forall a b, has_target (lg_rep g) a b -> lookup (lg_rep g) b <> None) ->
  (dget String.eqb "basic_transitivity" (apply_reports [] (fst (check_transitivity g))) = Some true <->
   transitive (lg_rep g)).
Proof. exact transitivity_recorded. Qed.
Print Assumptions C25_verdict_recorded_partial.

Theorem C25_failure_not_recorded_refuted : exists g rs issues, lgr_reachable g /\
  check_transitivity g = (rs, Ok (false, issues)) /\
  dget String.eqb "basic_transitivity" (apply_reports [] rs) = Some true.
Proof. exact transitivity_not_recorded. Qed.
Print Assumptions C25_failure_not_recorded_refuted.

Example C25_nontrivial :
  (exists rs is, check_transitivity (lgr_of tri_ops) = (rs, Ok (true, is))) /\
  (exists rs w, check_transitivity (lgr_of [lcp [1]; lcp [2]; lcp [3]; lvar [1] [2]; lvar [2] [3]]) = (rs, Ok (false, [w])) /\
     failed rs "basic_transitivity").
Proof.
  split; vm_compute; eexists; eexists; [reflexivity|]. split; [reflexivity|]. left. reflexivity.
Qed.

(** C35: without an earlier RFC 7940 run, the checks executed are those of the
    options, each reported once with its outcome. *)
Theorem C35_checks_depend_on_options_partial : forall R (run : string -> res R) history rfc7940,
  ~ In true history ->
  validate_lgr run (checks_after history) rfc7940 = (spec_checks rfc7940, run_all run (spec_checks rfc7940)).
Proof. exact validate_run_independent. Qed.
Print Assumptions C35_checks_depend_on_options_partial.

(** In general each earlier RFC 7940 run adds its checks once more. *)
Theorem C35_checks_accumulate : forall R (run : string -> res R) history rfc7940,
  snd (validate_lgr run (checks_after history) rfc7940) =
  run_all run (initial_checks ++ rfc_copies (count_true (history ++ [rfc7940]))).
Proof. exact validate_run_general. Qed.
Print Assumptions C35_checks_accumulate.

Theorem C35_run_depends_on_history_refuted : exists history rfc7940,
  fst (validate_lgr (R := unit) (fun _ => Ok tt) (checks_after history) rfc7940) <> spec_checks rfc7940.
Proof. exact validate_run_dependent. Qed.
Print Assumptions C35_run_depends_on_history_refuted.

(** Every listed check is reported, in order, failures of the package being
    reported as results; any other exception ends the run. *)
Theorem C35_all_checks_reported : forall R (run : string -> res R) checks,
  match run_all run checks with
  | Ok rs => map fst rs = checks /\
             Forall2 (fun n p => snd p = match run n with Ok r => Result r | Raise e => Failure e end) checks rs /\
             (forall n e, In n checks -> run n = Raise e -> is_lgr_exception e = true)
  | Raise e => exists pre n post, checks = pre ++ n :: post /\ run n = Raise e /\ is_lgr_exception e = false /\
                 forall m e', In m pre -> run m = Raise e' -> is_lgr_exception e' = true
  end.
Proof. exact run_all_spec. Qed.
Print Assumptions C35_all_checks_reported.

Example C35_nontrivial :
  ~ In true [false; false] /\
  (exists rs, run_all (fun n => if String.eqb n "rebuild_lgr" then Raise (NotInLGR [1]) else Ok n) (spec_checks true) = Ok rs /\
     length rs = 8%nat /\ nth_error rs 4 = Some ("rebuild_lgr", Failure (NotInLGR [1]))).
Proof. split; [intros [H|[H|[]]]; discriminate|]. vm_compute. eexists. split; [reflexivity|]. split; reflexivity. Qed.

(** C36: the counts are those over the entries, whatever their listing [es];
    missing: histories that delete a single member of a range (refuted below). *)
Theorem C36_counts_partial : forall g es, tidy g -> enumerates (lg_rep g) es ->
  let s := generate_stats g in
  st_codepoints s = N.of_nat (length es) /\
  st_ranges s = N.of_nat (length (rep_ranges (lg_rep g))) /\
  st_sequences s = countN (fun c => Nat.ltb 1 (length (ch_cp c))) es /\
  st_with_variants s = countN (fun c => match get_variants c with [] => false | _ => true end) es /\
  (forall ps, NoDup ps -> (forall a b, In (a, b) ps <-> has_target (lg_rep g) a b) ->
     st_mappings s = N.of_nat (length ps)) /\
  (forall t, dget ostring_eqb t (st_by_type s) =
             counted (countN (ostring_eqb t) (map v_type (flat_map get_variants es)))) /\
  (forall t, dget String.eqb t (st_by_tag s) = counted (countN (String.eqb t) (flat_map ch_tags es))).
Proof. exact stats_spec. Qed.
Print Assumptions C36_counts_partial.

Theorem C36_largest_partial : forall g es, tidy g -> enumerates (lg_rep g) es ->
  let s := generate_stats g in
  is_max (fun p : N * N => snd p - fst p + 1) (rep_ranges (lg_rep g)) (st_largest_range_len s) /\
  is_max (fun c => if Nat.ltb 1 (length (ch_cp c)) then N.of_nat (length (ch_cp c)) else 0) es (st_largest_sequence_len s) /\
  is_max vset es (st_largest_set s).
Proof. exact stats_largest. Qed.
Print Assumptions C36_largest_partial.

(** The range and the sequence named as largest. *)
Theorem C36_largest_named_partial : forall g, tidy g -> let s := generate_stats g in
  match st_largest_range s with
  | None => rep_ranges (lg_rep g) = []
  | Some c => exists f l, ch_kind c = KRange f l /\ lookup (lg_rep g) [f] = Some c /\ ch_cp c = [f] /\ In (f, l) (rep_ranges (lg_rep g)) /\
      st_largest_range_len s = l - f + 1 /\ forall f' l', In (f', l') (rep_ranges (lg_rep g)) -> l' - f' <= l - f
  end /\
  match st_largest_sequence s with
  | None => forall c, lookup (lg_rep g) c <> None -> length c = 1%nat
  | Some c => lookup (lg_rep g) (ch_cp c) = Some c /\ (1 < length (ch_cp c))%nat /\
      st_largest_sequence_len s = N.of_nat (length (ch_cp c)) /\
      forall d, lookup (lg_rep g) d <> None -> (1 < length d)%nat -> (length d <= length (ch_cp c))%nat
  end.
Proof. exact stats_named. Qed.
Print Assumptions C36_largest_named_partial.

Theorem C36_tag_counts_partial : forall g es t, tag_tidy g -> enumerates (lg_rep g) es ->
  dget String.eqb t (st_by_tag (generate_stats g)) = counted (countN (fun c => memb String.eqb t (ch_tags c)) es).
Proof. exact stats_tags_tidy. Qed.
Print Assumptions C36_tag_counts_partial.

Theorem C36_stale_range_counted_refuted : exists g es, lgr_reachable g /\ enumerates (lg_rep g) es /\
  st_codepoints (generate_stats g) <> N.of_nat (length es).
Proof. exact stats_stale. Qed.
Print Assumptions C36_stale_range_counted_refuted.

Example C36_nontrivial : tidy (lgr_of stat_ops) /\ (exists es, enumerates (lg_rep (lgr_of stat_ops)) es) /\
  let s := generate_stats (lgr_of stat_ops) in
  st_codepoints s = 7 /\ st_ranges s = 1 /\ st_sequences s = 1 /\ st_mappings s = 2 /\
  dget ostring_eqb (Some "blocked") (st_by_type s) = Some 3 /\ dget String.eqb "t" (st_by_tag s) = Some 5.
Proof. split; [exact stat_tidy|]. split; [apply enumeration_exists; apply lgr_of_reachable|exact stat_values]. Qed.

(** C45 *)
Theorem C45_conditional_variants_checked : forall g rules, lgr_reachable g ->
  let '(ok, issues) := check_conditional_variants g rules in
  (ok = true <-> forall a b v rule, mapping (lg_rep g) a b v ->
                   (v_when v = Some rule \/ v_not_when v = Some rule) -> In rule rules) /\
  (forall ch v b rule, In (ch, v, b, rule) issues <->
     lookup (lg_rep g) (ch_cp ch) = Some ch /\ In v (get_variants ch) /\
     rule = (if b then v_when v else v_not_when v) /\ exists s, rule = Some s /\ ~ In s rules).
Proof. exact check_conditional_spec. Qed.
Print Assumptions C45_conditional_variants_checked.

Example C45_nontrivial :
  fst (check_conditional_variants (lgr_of tri_ops) ["r"]) = true /\
  length (snd (check_conditional_variants (lgr_of tri_ops) ["s"])) = 2%nat.
Proof. vm_compute. split; reflexivity. Qed.

(** C54: every variant type in use is listed; a listed type was given by some successful addition;
    a type stays listed after its last variant is gone. *)
Theorem C54_types_in_use_listed : forall g a b v, lgr_reachable g -> mapping (lg_rep g) a b v -> In (v_type v) (lg_types g).
Proof. exact types_cover. Qed.
Print Assumptions C54_types_in_use_listed.

Theorem C54_listed_types_given : forall db allow ops t, In t (lg_types (fst (lgr_run (new_lgr db allow) ops))) <->
  exists before o after, ops = before ++ o :: after /\
    exists c v w nw cm rf vr ov fo, o = LAddVariant c v t w nw cm rf vr ov fo /\
      snd (lgr_step (fst (lgr_run (new_lgr db allow) before)) o) = LUnit.
Proof. exact types_given. Qed.
Print Assumptions C54_listed_types_given.

Theorem C54_only_types_in_use_refuted : exists g t, lgr_reachable g /\ In t (lg_types g) /\
  forall a b v, mapping (lg_rep g) a b v -> v_type v <> t.
Proof. exact types_stale. Qed.
Print Assumptions C54_only_types_in_use_refuted.

Example C54_nontrivial : let g := lgr_of stat_ops in
  In (Some "blocked") (lg_types g) /\ exists a b v, mapping (lg_rep g) a b v /\ v_type v = Some "blocked".
Proof. exact types_sample. Qed.
