(** Property theorems about labels: eligibility, partitions, index, variants,
    disposition listing (C16-C23, C29, C43, C44).  Statements only.
    [rm] is the outcome of evaluating a rule, any function. *)
From Verif Require Import Base CharModel RepSpec RangeProofs ActionModel ActionSpec LabelModel LabelSpec LabelProofs LabelElig LabelIndex LabelVar LabelFilter LabelList LabelFinal.
Open Scope string_scope.
Open Scope list_scope.

(** C16: an eligible label is a succession of entries whose context rules hold. *)
Theorem C16_eligible_is_composed : forall rm r acts label is_variant e, reachable r ->
  test_label_eligible rm r acts label is_variant = Ok e -> el_ok e = true ->
  cut rm r label 0 (el_chars e) /\ spelled (el_chars e) = label /\ el_parts e = label /\
  el_invalid e = [] /\ el_disp e <> Some "invalid".
Proof. exact eligible_composed. Qed.
Print Assumptions C16_eligible_is_composed.

(** An ineligible one has a reported code point that starts no applicable
    entry where it stands, with the right reason, or is refused by an action. *)
Theorem C16_ineligible_has_reason : forall rm r acts label is_variant e, reachable r ->
  test_label_eligible rm r acts label is_variant = Ok e -> el_ok e = false ->
  el_disp e = Some "invalid" /\
  (el_invalid e <> [] \/ (cut rm r label 0 (el_chars e) /\ (0 <= el_idx e)%Z)) /\
  forall x reason, In (x, reason) (el_invalid e) ->
    exists j, nth_error label j = Some x /\ (forall ch, ~ applies rm r label j ch) /\ right_reason r label j reason.
Proof. exact ineligible_reasons. Qed.
Print Assumptions C16_ineligible_has_reason.

(** The complete outcome: longest match, then the first triggered action. *)
Theorem C16_eligibility_outcome : forall rm r acts label is_variant, reachable r -> label <> [] ->
  exists e chars inv, test_label_eligible rm r acts label is_variant = Ok e /\
    longest_match rm r label 0 chars inv /\ el_chars e = chars /\ el_invalid e = inv /\
    ((inv <> [] /\ el_ok e = false /\ el_parts e = spelled chars /\ el_disp e = Some "invalid" /\ el_idx e = (-1)%Z) \/
     (inv = [] /\ exists ds only a i,
        (forall t, In t ds <-> is_variant = false /\ self_type rm r label t) /\
        (only = true <-> ds <> [] /\ all_self_mapped rm r label) /\
        decided_by rm acts label ds only a i /\ el_disp e = Some (a_disp a) /\ el_idx e = Z.of_nat i /\
        (el_ok e = true <-> a_disp a <> "invalid") /\
        el_parts e = (if el_ok e then label else []))).
Proof. exact test_label_eligible_spec. Qed.
Print Assumptions C16_eligibility_outcome.

(** That outcome is determined by the specification alone. *)
Theorem C16_longest_match_unique : forall rm r label i a ia b ib,
  longest_match rm r label i a ia -> longest_match rm r label i b ib -> a = b /\ map fst ia = map fst ib.
Proof. exact longest_match_unique_reach. Qed.
Print Assumptions C16_longest_match_unique.

Theorem C16_eligibility_total : forall rm r acts label is_variant, reachable r ->
  (label <> [] -> exists e, test_label_eligible rm r acts label is_variant = Ok e) /\
  (label = [] -> test_label_eligible rm r acts label is_variant = Raise (LGRApiInvalidParameter "label")).
Proof. exact eligibility_total. Qed.
Print Assumptions C16_eligibility_total.

Example C16_nontrivial :
  let r := built [addc [97]; addc [97; 98]; OpAddChar [99] None [] [] (Some "after-a") None] in
  let rm := fun (n : string) (l : cps) (p : option (cps * nat)) =>
              match p with Some (_, i) => match nth_error l (pred i) with Some 97 => true | _ => false end | None => false end in
  (exists e, test_label_eligible rm r [] [97; 98; 97; 99] false = Ok e /\ el_ok e = true /\ length (el_chars e) = 3%nat) /\
  (exists e, test_label_eligible rm r [] [97; 98; 99] false = Ok e /\ el_ok e = false /\ el_invalid e = [(99, Some [Some "after-a"])]).
Proof. cbv zeta. split; eexists; vm_compute; auto. Qed.

(** C17: when some entry applies at every position, or when there are no
    sequences, a label made of entries is not reported as outside the LGR. *)
Theorem C17_composed_is_eligible_partial : forall rm r acts label is_variant e, reachable r ->
  test_label_eligible rm r acts label is_variant = Ok e ->
  (forall j, (j < length label)%nat -> exists ch, applies rm r label j ch) -> el_invalid e = [].
Proof. exact eligible_when_each_position. Qed.
Print Assumptions C17_composed_is_eligible_partial.

Theorem C17_without_sequences_partial : forall rm r acts label is_variant e l, reachable r ->
  (forall ch, entry r ch -> length (ch_cp ch) = 1%nat) -> cut rm r label 0 l ->
  test_label_eligible rm r acts label is_variant = Ok e -> el_invalid e = [].
Proof. exact eligible_single_entries. Qed.
Print Assumptions C17_without_sequences_partial.

(** In general it is false: the longest match is never reconsidered. *)
Theorem C17_greedy_refuted : exists r label l e, reachable r /\ cut no_rules r label 0 l /\
  test_label_eligible no_rules r [] label false = Ok e /\ el_ok e = false /\ el_invalid e <> [].
Proof. exact greedy_incomplete. Qed.
Print Assumptions C17_greedy_refuted.

Example C17_nontrivial : exists e, test_label_eligible no_rules (built simple_ops) [] [97; 98; 100] false = Ok e /\ el_invalid e = [] /\
  (forall ch, entry (built simple_ops) ch -> length (ch_cp ch) = 1%nat) /\ exists l, cut no_rules (built simple_ops) [97; 98; 100] 0 l.
Proof. exact single_sample. Qed.

(** C18: the partitions are exactly the ways to cut the label, each once. *)
Theorem C18_partitions_are_the_cuts : forall rm r label, reachable r -> label <> [] ->
  exists ps, label_partitions rm r label = Some ps /\ NoDup ps /\ (forall p, In p ps <-> cut rm r label 0 p) /\
    (forall acts is_variant e, test_label_eligible rm r acts label is_variant = Ok e -> el_invalid e = [] -> ps <> []).
Proof. exact partitions_exact. Qed.
Print Assumptions C18_partitions_are_the_cuts.

Example C18_nontrivial :
  option_map (map (map ch_cp)) (label_partitions no_rules (built (greedy_ops ++ [addc [98]; addc [99]])) [97; 98; 99]) =
  Some [[[97; 98]; [99]]; [[97]; [98; 99]]; [[97]; [98]; [99]]].
Proof. vm_compute. reflexivity. Qed.

(** C19: the index label is the smallest over the partitions. *)
Theorem C19_index_is_smallest : forall rm r label, reachable r -> label <> [] ->
  forall chars inv, longest_match rm r label 0 chars inv ->
  match inv with
  | [] => exists m, index_once rm r label = Ok m /\ smallest (index_candidate rm r label) m
  | (x, _) :: _ => index_once rm r label = Raise (NotInLGR [x])
  end.
Proof. exact index_once_spec. Qed.
Print Assumptions C19_index_is_smallest.

(** In a symmetric, transitive LGR of single code points without context
    rules, equal index labels mean being variants of each other. *)
Theorem C19_index_detects_collisions : forall rm r, reachable r -> simple_lgr r -> forall a b, in_lgr r a -> in_lgr r b ->
  exists ia ib, index_once rm r a = Ok ia /\ index_once rm r b = Ok ib /\
    (ia = ib <-> Forall2 (interchangeable r) a b).
Proof. exact simple_index_collision. Qed.
Print Assumptions C19_index_detects_collisions.

Theorem C19_index_is_canonical : forall rm r, reachable r -> simple_lgr r -> forall a, in_lgr r a ->
  exists m, index_once rm r a = Ok m /\ in_lgr r m /\ length m = length a /\ Forall2 (interchangeable r) a m /\
    cps_leb m a = true /\ index_once rm r m = Ok m /\
    (forall max_rec as_tuple, index_label rm r max_rec as_tuple a = Ok m).
Proof. exact simple_index_canonical. Qed.
Print Assumptions C19_index_is_canonical.

Example C19_nontrivial : simple_lgr (built simple_ops) /\
  index_once no_rules (built simple_ops) [100; 99; 98] = Ok [100; 97; 97].
Proof. split; [exact simple_sample|vm_compute; reflexivity]. Qed.

(** Outside that class both fail. *)
Theorem C19_bound_with_sequences_refuted : exists r label m, reachable r /\ index_once no_rules r label = Ok m /\
  m <> label /\ cps_leb label m = true.
Proof. exact index_exceeds. Qed.
Print Assumptions C19_bound_with_sequences_refuted.
Theorem C19_collision_without_symmetry_refuted : exists r a b ia ib, reachable r /\ maps_to r a b /\
  index_once no_rules r [a] = Ok ia /\ index_once no_rules r [b] = Ok ib /\ ia <> ib.
Proof. exact index_asymmetric. Qed.
Print Assumptions C19_collision_without_symmetry_refuted.

(** C20: every generated label replaces entries by themselves or by variants
    whose rule holds, and reports their types faithfully. *)
Theorem C20_variants_sound : forall rm r script label hide ws w, reachable r -> label <> [] ->
  label_variants rm r script label hide = Some ws -> In w ws ->
  exists l, free_replacement rm r [] label l /\ reports w l.
Proof. exact generated_sound. Qed.
Print Assumptions C20_variants_sound.

Theorem C20_generation_terminates : forall rm r script, reachable r -> forall label hide,
  exists ws, label_variants rm r script label hide = Some ws.
Proof. exact variants_total. Qed.
Print Assumptions C20_generation_terminates.

Example C20_nontrivial :
  option_map (map (fun w => (vl_cp w, vl_disp w, vl_only w)))
    (label_variants no_rules (built seq_ops) (fun _ => "Latin") [97; 98] false) =
  Some [([97; 98], [], false); ([99], [Some "blocked"], true); ([97; 98], [Some "r"], false); ([100; 98], [Some "r"; Some "allocatable"], true);
        ([97; 98], [Some "r"], false); ([100; 98], [Some "r"; Some "allocatable"], true)].
Proof. vm_compute. reflexivity. Qed.

(** C21: exactly what is generated, without hiding. *)
Theorem C21_variants_exact : forall rm r script label, reachable r -> label <> [] ->
  exists ws, label_variants rm r script label false = Some ws /\
    (forall w, In w ws -> exists l, replacement rm (considered rm r) [] label l /\ produced l /\ reports w l) /\
    (forall l, replacement rm (considered rm r) [] label l -> produced l -> exists w, In w ws /\ reports w l).
Proof. exact variants_exact_reach. Qed.
Print Assumptions C21_variants_exact.

(** When every sequence has a variant and no context rule, all are generated. *)
Theorem C21_variants_complete_partial : forall rm r script label l, reachable r -> sequences_mapped r -> label <> [] ->
  free_replacement rm r [] label l -> result l <> label ->
  exists ws w, label_variants rm r script label false = Some ws /\ In w ws /\ vl_cp w = result l.
Proof. exact variants_complete_reach. Qed.
Print Assumptions C21_variants_complete_partial.

Example C21_nontrivial : sequences_mapped (built seq_ops) /\ exists ch, entry (built seq_ops) ch /\ length (ch_cp ch) = 2%nat.
Proof. split; [exact seq_mapped_sample|]. eexists. split; [apply built_entry; do 1 right; left; reflexivity|reflexivity]. Qed.

(** A sequence without variants hides the variants of what follows it. *)
Theorem C21_sequence_without_variants_refuted : exists r label l ws, reachable r /\ free_replacement no_rules r [] label l /\
  result l <> label /\ (exists p, cut no_rules r (result l) 0 p) /\
  label_variants no_rules r (fun _ => "Latin") label false = Some ws /\ ~ In (result l) (map vl_cp ws).
Proof. exact generation_incomplete. Qed.
Print Assumptions C21_sequence_without_variants_refuted.

(** C22: the listing ends with the original label; nothing is repeated;
    everything listed is a generated label with the verdict of the first
    triggered action; nothing wanted is left out except invalid labels. *)
Theorem C22_listing : forall rm r acts script, reachable r -> forall label include_invalid hide generate_chars with_labels,
  label <> [] -> (length label <= 63)%nat ->
  exists ws zs o, label_variants rm r script label hide = Some ws /\
    compute_label_disposition rm r acts script true label include_invalid hide generate_chars with_labels = (zs ++ [o], Ok tt) /\
    ls_cp o = label /\ (forall z, In z zs -> ls_cp z <> label) /\
    ((exists w, In w ws /\ vl_cp w = label /\ judged rm r acts label w o) \/
     (exists e, test_label_eligible rm r acts label false = Ok e /\
        ls_disp o = el_disp e /\ ls_idx o = el_idx e /\ ls_types o = [])) /\
    (forall z, In z zs -> exists w, In w ws /\ wanted with_labels (vl_cp w) /\ judged rm r acts label w z /\
        (include_invalid = false -> ~ invalid_disp z)) /\
    (generate_chars = false -> NoDup (map ls_cp (zs ++ [o]))) /\
    (forall w, In w ws -> (generate_chars = false -> first_with ws w) -> wanted with_labels (vl_cp w) -> vl_cp w <> label ->
        exists z, judged rm r acts label w z /\ (In z zs \/ include_invalid = false /\ invalid_disp z)).
Proof. exact listing_spec. Qed.
Print Assumptions C22_listing.

Theorem C22_listing_refused : forall rm r acts script label has_unidb include_invalid hide generate_chars with_labels,
  (has_unidb = false ->
     compute_label_disposition rm r acts script has_unidb label include_invalid hide generate_chars with_labels = ([], Raise LGRApiException)) /\
  (has_unidb = true -> (63 < length label)%nat ->
     compute_label_disposition rm r acts script has_unidb label include_invalid hide generate_chars with_labels =
     ([], Raise (LGRApiInvalidParameter "label"))) /\
  (has_unidb = true -> label = [] ->
     compute_label_disposition rm r acts script has_unidb label include_invalid hide generate_chars with_labels =
     ([], Raise (LGRApiInvalidParameter "label"))).
Proof. exact listing_refused. Qed.
Print Assumptions C22_listing_refused.

Example C22_nontrivial :
  (fun x => map (fun z => (ls_cp z, ls_disp z)) (fst x))
    (compute_label_disposition no_rules (built twice_ops) [] (fun _ => "Latin") true [97; 98] true false false []) =
  [([120; 121], Some "invalid"); ([97; 121], Some "allocatable"); ([120; 98], Some "allocatable"); ([97; 98], Some "valid")].
Proof. vm_compute. reflexivity. Qed.

(** C23: with single code point entries the estimate bounds the listing of an
    eligible label, and it is exact when variants are single and unconditional. *)
Theorem C23_estimate_bounds_partial : forall rm r acts script, reachable r -> forall label include_invalid with_labels zs o,
  (forall ch, entry r ch -> length (ch_cp ch) = 1%nat) -> label <> [] -> (length label <= 63)%nat ->
  (exists chars, longest_match rm r label 0 chars []) ->
  compute_label_disposition rm r acts script true label include_invalid false false with_labels = (zs, o) ->
  exists n, estimate_variant_number rm r script label false = Some n /\ (length zs <= n)%nat.
Proof. exact estimate_bound. Qed.
Print Assumptions C23_estimate_bounds_partial.

Theorem C23_estimate_exact_partial : forall rm r acts script, reachable r -> forall label zs o,
  plain_variants r -> label <> [] -> (length label <= 63)%nat ->
  (exists chars, longest_match rm r label 0 chars []) ->
  compute_label_disposition rm r acts script true label true false false [] = (zs, o) ->
  estimate_variant_number rm r script label false = Some (length zs).
Proof. exact estimate_exact. Qed.
Print Assumptions C23_estimate_exact_partial.

Example C23_nontrivial : plain_variants (built simple_ops) /\
  estimate_variant_number no_rules (built simple_ops) (fun _ => "Latin") [97; 98; 100] false = Some 9%nat.
Proof. split; [exact plain_sample|vm_compute; reflexivity]. Qed.

(** With sequences, or when hiding mixed scripts, it can be too small. *)
Theorem C23_estimate_with_sequences_refuted : exists r label zs n, reachable r /\
  (exists chars, longest_match no_rules r label 0 chars []) /\
  compute_label_disposition no_rules r [] (fun _ => "Latin") true label false false false [] = (zs, Ok tt) /\
  estimate_variant_number no_rules r (fun _ => "Latin") label false = Some n /\ (n < length zs)%nat.
Proof. exact estimate_too_small. Qed.
Print Assumptions C23_estimate_with_sequences_refuted.

Theorem C23_estimate_hidden_refuted : exists r script label zs n, reachable r /\
  (forall ch, entry r ch -> length (ch_cp ch) = 1%nat) /\
  (exists chars, longest_match no_rules r label 0 chars []) /\
  compute_label_disposition no_rules r [] script true label false true false [] = (zs, Ok tt) /\
  estimate_variant_number no_rules r script label true = Some n /\ (n < length zs)%nat.
Proof. exact estimate_hidden_too_small. Qed.
Print Assumptions C23_estimate_hidden_refuted.

(** C29: what is generated when hiding mixed scripts. *)
Theorem C29_hidden_variants_partial : forall rm r script label, reachable r -> label <> [] ->
  exists ws, label_variants rm r script label true = Some ws /\
    forall w, In w ws -> exists p0 l, vl_chars w = p0 :: l /\ vl_cp w = flat_map piece_cp (p0 :: l) /\
      ((forall v, p0 = PVar v -> piece_within script (permitted (label_script script label)) p0) /\
       (forall p, In p l -> piece_within script (permitted (label_script script label)) p) \/
       (exists v x t, p0 = PVar v /\ v_cp v = x :: t /\
          (forall y, In y (v_cp v) -> In (script y) (other_scripts r script label)) /\
          (forall p, In p l -> piece_within script (permitted (fun s => s = script x)) p))).
Proof. exact hidden_variants_reach. Qed.
Print Assumptions C29_hidden_variants_partial.

(** With single code point variants this is the full claim. *)
Theorem C29_hidden_single_variants_partial : forall rm r script label ws w, reachable r -> label <> [] ->
  (forall ch v, entry r ch -> In v (get_variants ch) -> length (v_cp v) = 1%nat) ->
  label_variants rm r script label true = Some ws -> In w ws ->
  exists p0 l, vl_chars w = p0 :: l /\ vl_cp w = flat_map piece_cp (p0 :: l) /\
    ((forall v, p0 = PVar v -> piece_within script (permitted (label_script script label)) p0) /\
     (forall p, In p l -> piece_within script (permitted (label_script script label)) p) \/
     exists s, forall p, In p (p0 :: l) -> piece_within script (permitted (fun t => t = s)) p).
Proof. exact hidden_single. Qed.
Print Assumptions C29_hidden_single_variants_partial.

Theorem C29_permitted_closure : forall a b,
  (forall s, In s a -> In s (get_permitted_scripts a)) /\
  ((forall s, In s a -> In s b) -> forall s, In s (get_permitted_scripts a) -> In s (get_permitted_scripts b)) /\
  (forall s, In s (get_permitted_scripts (get_permitted_scripts a)) <-> In s (get_permitted_scripts a)).
Proof. exact permitted_closure. Qed.
Print Assumptions C29_permitted_closure.

Example C29_nontrivial :
  option_map (map vl_cp) (label_variants no_rules (built hide_ops) mixed_script [1; 2] true) = Some [[1; 2]; [100; 101]; [100; 200]].
Proof. vm_compute. reflexivity. Qed.

(** A variant of several code points at the start may mix scripts. *)
Theorem C29_first_piece_mixes_refuted : exists r script label ws w, reachable r /\
  label_variants no_rules r script label true = Some ws /\ In w ws /\
  (exists x, In x (vl_cp w) /\ ~ permitted (label_script script label) (script x)) /\
  forall s, ~ forall x, In x (vl_cp w) -> permitted (fun t => t = s) (script x).
Proof. exact first_piece_mixes. Qed.
Print Assumptions C29_first_piece_mixes_refuted.

(** C43: variants inside the permitted scripts of the label are not hidden... *)
Theorem C43_same_script_kept_partial : forall rm r script label, reachable r -> label <> [] ->
  exists ws, label_variants rm r script label true = Some ws /\
    forall l, replacement rm (considered rm r) [] label l -> produced l ->
      (forall x, In x l -> piece_within script (permitted (label_script script label)) (snd x)) ->
      exists w, In w ws /\ reports w l.
Proof. exact same_script_kept_reach. Qed.
Print Assumptions C43_same_script_kept_partial.

(** ... but code points of script Common (digits) are not permitted, so a label
    with one after its first position loses all its variants. *)
Theorem C43_common_hides_all_refuted : exists r script label ws ws' w, reachable r /\
  label_variants no_rules r script label false = Some ws /\ In w ws /\
  (forall x, In x (vl_cp w) -> exists y, In y label /\ script y = script x) /\
  label_variants no_rules r script label true = Some ws' /\ ~ In (vl_cp w) (map vl_cp ws').
Proof. exact common_hides_all. Qed.
Print Assumptions C43_common_hides_all_refuted.

(** C44: a label derivable in two ways gets the verdict of one of them that
    holds for its code points... *)
Theorem C44_verdict_of_a_derivation_partial : forall rm r acts script label include_invalid hide with_labels zs o ws z,
  reachable r -> label <> [] -> (length label <= 63)%nat ->
  label_variants rm r script label hide = Some ws ->
  compute_label_disposition rm r acts script true label include_invalid hide false with_labels = (zs ++ [o], Ok tt) ->
  In z zs -> exists w, In w ws /\ vl_cp w = ls_cp z /\ judged rm r acts label w z.
Proof. exact listed_derivation. Qed.
Print Assumptions C44_verdict_of_a_derivation_partial.

(** ... not the best one: an allocatable derivation is lost behind an invalid one. *)
Theorem C44_allocatable_suppressed_refuted : exists r label ws w z zs, reachable r /\
  label_variants no_rules r (fun _ => "Latin") label false = Some ws /\ In w ws /\ vl_cp w <> label /\
  judged no_rules r [] label w z /\ ls_disp z = Some "allocatable" /\
  compute_label_disposition no_rules r [] (fun _ => "Latin") true label false false false [] = (zs, Ok tt) /\
  ~ In (vl_cp w) (map ls_cp zs).
Proof. exact allocatable_suppressed. Qed.
Print Assumptions C44_allocatable_suppressed_refuted.
