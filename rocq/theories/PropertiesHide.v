(** C93: hiding mixed script variants, exactly. *)
From Verif Require Import Base CharModel RepSpec RepProofs ActionModel ActionSpec RangeProofs LabelModel LabelSpec LabelFinal HideSpec HideProofs HideFinal HideWitness.
Open Scope N_scope.
Open Scope string_scope.
Open Scope list_scope.

(** With hiding, the labels generated are those of the derivations that fit
    the scripts, each with its types, but for a mapping of the first entry to
    itself that is hidden. *)
Theorem C93_exact : forall rm r script label, reachable r -> label <> [] ->
  exists ws, label_variants rm r script label true = Some ws /\
    (forall w, In w ws -> exists l, remains rm r script label l /\ produced l /\ reports w l) /\
    (forall l, remains rm r script label l -> produced l -> exists w, In w ws /\ reports w l).
Proof. exact hidden_exact_reach. Qed.
Print Assumptions C93_exact.

(** Hiding adds no label. *)
Theorem C93_subset : forall rm r script label ws ws' w, reachable r -> label <> [] ->
  label_variants rm r script label true = Some ws -> label_variants rm r script label false = Some ws' ->
  In w ws -> exists w', In w' ws' /\ vl_cp w' = vl_cp w.
Proof. exact hidden_shown_reach. Qed.
Print Assumptions C93_subset.

(** Without code points of script Common or Inherited in the label, hiding is
    a filter on derivations and leaves the types as they are. *)
Theorem C93_filter_partial : forall rm r script label ws ws', reachable r -> label <> [] -> (forall x, In x label -> named (script x)) ->
  label_variants rm r script label true = Some ws -> label_variants rm r script label false = Some ws' ->
  (forall w, In w ws -> exists l w', fits r script label l /\ reports w l /\ In w' ws' /\ reports w' l) /\
  (forall l, replacement rm (considered rm r) [] label l -> produced l -> fits r script label l -> exists w, In w ws /\ reports w l).
Proof. exact hidden_same. Qed.
Print Assumptions C93_filter_partial.

(** In a label all of whose code points start an entry, the other scripts are
    those that every position offers... *)
Theorem C93_alternatives_partial : forall r script label s, reachable r -> label <> [] -> (forall x, In x label -> known r x) ->
  (alternative r script label s <-> everywhere r script label s).
Proof. exact alternative_everywhere_reach. Qed.
Print Assumptions C93_alternatives_partial.

(** ... and without sequences no variant label wholly in one script is hidden. *)
Theorem C93_whole_script_partial : forall rm r script label s, reachable r -> label <> [] -> named s ->
  (forall ch a b, entry r ch -> label = a ++ ch_cp ch ++ b -> length (ch_cp ch) = 1%nat) ->
  exists ws, label_variants rm r script label true = Some ws /\
    forall l, replacement rm (considered rm r) [] label l ->
      (forall x, In x l -> exists v, snd x = PVar v /\ forall y, In y (v_cp v) -> script y = s) ->
      exists w, In w ws /\ reports w l.
Proof. exact whole_script_kept_reach. Qed.
Print Assumptions C93_whole_script_partial.

Example C93_sample : reachable (built order_ops) /\ (forall x, In x [1; 2] -> known (built order_ops) x) /\
  (forall x, In x [1; 2] -> named (mixed_script x)) /\ alternative (built order_ops) mixed_script [1; 2] "Han" /\
  (forall ch a b, entry (built order_ops) ch -> [1; 2] = a ++ ch_cp ch ++ b -> length (ch_cp ch) = 1%nat) /\
  option_map (map vl_cp) (label_variants no_rules (built order_ops) mixed_script [1; 2] true) = Some [[1; 2]; [100; 101]; [100; 200]; [201; 200]].
Proof. exact hide_sample. Qed.

(** A digit first in the label, with a blocked mapping to itself: hiding turns
    the blocked label into a valid one and its variant into an allocatable one. *)
Theorem C93_verdict_refuted : exists r script label zs zs', reachable r /\
  compute_label_disposition no_rules r [] script true label true false false [] = (zs, Ok tt) /\
  compute_label_disposition no_rules r [] script true label true true false [] = (zs', Ok tt) /\
  map (fun z => (ls_cp z, ls_disp z)) zs = [([500; 2], Some "blocked"); ([500; 1], Some "blocked")] /\
  map (fun z => (ls_cp z, ls_disp z)) zs' = [([500; 2], Some "allocatable"); ([500; 1], Some "valid")].
Proof. exact verdict_changed. Qed.
Print Assumptions C93_verdict_refuted.

(** A sequence in the label hides a variant label wholly in one other script. *)
Theorem C93_sequence_refuted : exists r script label ws ws' s, reachable r /\ named s /\
  label_variants no_rules r script label false = Some ws /\ label_variants no_rules r script label true = Some ws' /\
  exists w, In w ws /\ (forall x, In x (vl_cp w) -> script x = s) /\ (forall p, In p (vl_chars w) -> exists v, p = PVar v) /\
    ~ In (vl_cp w) (map vl_cp ws').
Proof. exact whole_script_hidden. Qed.
Print Assumptions C93_sequence_refuted.

(** Han and Latin are permitted together, but Latin first is hidden. *)
Theorem C93_order_refuted : exists r script label ws ws', reachable r /\
  label_variants no_rules r script label false = Some ws /\ label_variants no_rules r script label true = Some ws' /\
  (forall x, In x [100; 200; 201; 101] -> permitted (fun s => s = "Han") (script x)) /\
  In [100; 200] (map vl_cp ws') /\ In [201; 101] (map vl_cp ws) /\ ~ In [201; 101] (map vl_cp ws').
Proof. exact order_matters. Qed.
Print Assumptions C93_order_refuted.
