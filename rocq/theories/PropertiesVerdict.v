(** Property theorems about the verdict on labels when variants are completed
    (C91).  Statements only. *)
From Verif Require Import Base CharModel RepSpec LgrModel LgrSpec LgrFinal ValidateSpec ValidateFinal PopulateModel PopulateSpec HarmonizeModel HarmonizeSpec HarmonizeWitness
  ActionModel LabelModel LabelSpec VerdictSpec VerdictProofs VerdictKeep VerdictFinal.
Open Scope string_scope.
Open Scope list_scope.

(** The verdict on a label is settled by the entries that occur in it, their
    rules and their mappings to themselves: other variants, and entries that do
    not occur in it, have no influence. *)
Theorem C91_settled : forall r r' label, reachable r -> reachable r' -> settled r r' -> avoids r r' label -> verdict_kept r r' label.
Proof. exact verdicts. Qed.
Print Assumptions C91_settled.

(** Populating an LGR, whether it ends well or not, changes the verdict on no
    label in which none of the code points it adds occurs. *)
Theorem C91_populate : forall g g' o label, lgr_reachable g -> populate g = (g', o) -> avoids (lg_rep g) (lg_rep g') label ->
  verdict_kept (lg_rep g) (lg_rep g') label.
Proof. exact populate_verdicts. Qed.
Print Assumptions C91_populate.

(** Nor does harmonizing two LGRs, with a root zone LGR or without. *)
Theorem C91_harmonize : forall order g1 g2 root h1 h2 rs label, rearranges order -> tidy g1 -> tidy g2 -> (forall z, root = Some z -> tidy z) ->
  harmonize order g1 g2 root = Ok (h1, h2, rs) ->
  (avoids (lg_rep g1) (lg_rep h1) label -> verdict_kept (lg_rep g1) (lg_rep h1) label) /\
  (avoids (lg_rep g2) (lg_rep h2) label -> verdict_kept (lg_rep g2) (lg_rep h2) label).
Proof. exact harmonize_verdicts. Qed.
Print Assumptions C91_harmonize.

(** Code points keep exactly the mappings to themselves that they had. *)
Theorem C91_mappings_to_itself : forall g, lgr_reachable g -> forall a v, mapping (lg_rep (fst (populate g))) a a v <-> mapping (lg_rep g) a a v.
Proof. exact populate_selves. Qed.
Print Assumptions C91_mappings_to_itself.

(** But any code point brought in is a valid label under the default actions,
    though it was not in the LGR: nothing sets it apart from the others... *)
Theorem C91_new_is_valid : forall g g' o x, lgr_reachable g -> populate g = (g', o) -> lookup (lg_rep g) [x] = None -> lookup (lg_rep g') [x] <> None ->
  forall rm, exists e, test_label_eligible rm (lg_rep g') [] [x] false = Ok e /\ el_ok e = true /\ el_disp e = Some "valid".
Proof. exact populate_new_valid. Qed.
Print Assumptions C91_new_is_valid.
(** ...or, when harmonizing, only a type ("out-of-repertoire") that no default
    action looks at. *)
Theorem C91_foreign_is_valid : forall order g1 g2 h1 h2 rs x, rearranges order -> tidy g1 -> tidy g2 -> harmonize order g1 g2 None = Ok (h1, h2, rs) ->
  lookup (lg_rep g1) [x] = None -> lookup (lg_rep h1) [x] <> None ->
  forall rm, exists e, test_label_eligible rm (lg_rep h1) [] [x] false = Ok e /\ el_ok e = true /\ el_disp e = Some "valid".
Proof. exact harmonize_new_valid. Qed.
Print Assumptions C91_foreign_is_valid.
Theorem C91_new_refuted : exists g g' label e e', lgr_reachable g /\ populate g = (g', Ok tt) /\
  test_label_eligible twice (lg_rep g) [] label false = Ok e /\ el_ok e = false /\ el_invalid e = [(3, None)] /\
  test_label_eligible twice (lg_rep g') [] label false = Ok e' /\ el_ok e' = true /\ el_disp e' = Some "valid".
Proof. exact new_eligible. Qed.
Print Assumptions C91_new_refuted.
Theorem C91_foreign_refuted : exists g1 g2 h1 h2 rs label e e', tidy g1 /\ tidy g2 /\ harmonize as_is g1 g2 None = Ok (h1, h2, rs) /\
  test_label_eligible twice (lg_rep g1) [] label false = Ok e /\ el_ok e = false /\
  (exists v, mapping (lg_rep h1) label label v /\ v_type v = Some "out-of-repertoire") /\
  test_label_eligible twice (lg_rep h1) [] label false = Ok e' /\ el_ok e' = true /\ el_disp e' = Some "valid".
Proof. exact foreign_eligible. Qed.
Print Assumptions C91_foreign_refuted.

(** An LGR that populating changes, a label that stays valid and one that stays
    invalid. *)
Example C91_sample : let g := lgr_of verdict_ops in let g' := fst (populate g) in
  lgr_reachable g /\ snd (populate g) = Ok tt /\ g' <> g /\ avoids (lg_rep g) (lg_rep g') [1; 2] /\ avoids (lg_rep g) (lg_rep g') [1; 2; 1] /\
  verdict_of twice g [1; 2] = Some (true, Some "valid", 4%Z) /\ verdict_of twice g' [1; 2] = Some (true, Some "valid", 4%Z) /\
  verdict_of twice g [1; 2; 1] = Some (false, Some "invalid", 0%Z) /\ verdict_of twice g' [1; 2; 1] = Some (false, Some "invalid", 0%Z).
Proof. exact verdict_sample. Qed.
