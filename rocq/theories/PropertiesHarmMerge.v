(** C102. Two LGRs harmonized and then merged.

    The way to one LGR whose variants are complete: merged as they are, two LGRs
    may refuse each other (C38_two_shared_refuted) or leave variants of variants
    out (C38).  [with_lgr m h]: the member with its LGR replaced by the
    harmonized one.  The harmonization is first without, then with a
    root zone LGR. *)
From Coq Require Import Permutation.
From Verif Require Import Base CharModel RepSpec ActionModel LabelModel LabelSpec LgrModel LgrSpec ValidateModel ValidateSpec SerialSpec HarmonizeModel HarmonizeSpec HarmonizeWitness
  MergeModel MergeSpec MergeWitness MergeSucceedSpec CombineSpec CombineWitness MergeStopWitness HarmMergeSpec HarmMerge HarmMergeWitness HarmRoot HarmRootWitness.
Open Scope string_scope.
Open Scope N_scope.
Open Scope list_scope.

(** Two such LGRs can be harmonized. *)
Theorem C102_harmonized : forall order m1 m2, rearranges order -> proper (mb_lgr m1) -> proper (mb_lgr m2) ->
  exists h1 h2 rs, harmonize order (mb_lgr m1) (mb_lgr m2) None = Ok (h1, h2, rs).
Proof. exact harmonized_exists. Qed.
Print Assumptions C102_harmonized.

(** After that they can be merged exactly if they ask for the same rules on the
    code points they share. *)
Theorem C102_succeeds_exact : forall order, rearranges order -> forall m1 m2 h1 h2 rs, proper (mb_lgr m1) -> proper (mb_lgr m2) ->
  unconditional m1 -> unconditional m2 -> complete m1 -> complete m2 -> harmonize order (mb_lgr m1) (mb_lgr m2) None = Ok (h1, h2, rs) ->
  forall on ov, any_order on -> any_order ov -> texts_once m1 -> texts_once m2 -> get_script m1 <> get_script m2 ->
  unambiguous when_of [m1; m2] -> unambiguous not_when_of [m1; m2] ->
  ((exists st, merge_lgr_set on ov [with_lgr m1 h1; with_lgr m2 h2] = Ok st) <-> same_rules when_of [m1; m2] /\ same_rules not_when_of [m1; m2]).
Proof. exact harmonized_merge. Qed.
Print Assumptions C102_succeeds_exact.

(** The variants of the merged LGR are symmetric and transitive. *)
Theorem C102_symmetric : forall order, rearranges order -> forall m1 m2 h1 h2 rs, proper (mb_lgr m1) -> proper (mb_lgr m2) ->
  unconditional m1 -> unconditional m2 -> harmonize order (mb_lgr m1) (mb_lgr m2) None = Ok (h1, h2, rs) ->
  forall on ov, any_order ov -> texts_once m1 -> texts_once m2 ->
  forall st, merge_lgr_set on ov [with_lgr m1 h1; with_lgr m2 h2] = Ok st -> symmetric (lg_rep (mg_lgr st)).
Proof. exact harmonized_symmetric. Qed.
Print Assumptions C102_symmetric.
Theorem C102_transitive : forall order, rearranges order -> forall m1 m2 h1 h2 rs, proper (mb_lgr m1) -> proper (mb_lgr m2) ->
  unconditional m1 -> unconditional m2 -> complete m1 -> complete m2 -> harmonize order (mb_lgr m1) (mb_lgr m2) None = Ok (h1, h2, rs) ->
  forall on ov, any_order on -> any_order ov -> texts_once m1 -> texts_once m2 -> get_script m1 <> get_script m2 ->
  unambiguous when_of [m1; m2] -> unambiguous not_when_of [m1; m2] ->
  forall st, merge_lgr_set on ov [with_lgr m1 h1; with_lgr m2 h2] = Ok st -> transitive (lg_rep (mg_lgr st)).
Proof. exact harmonized_transitive. Qed.
Print Assumptions C102_transitive.

(** It relates two code points exactly if a chain of variants of the two LGRs
    leads from one to the other. *)
Theorem C102_related : forall order, rearranges order -> forall m1 m2 h1 h2 rs, proper (mb_lgr m1) -> proper (mb_lgr m2) ->
  unconditional m1 -> unconditional m2 -> complete m1 -> complete m2 -> harmonize order (mb_lgr m1) (mb_lgr m2) None = Ok (h1, h2, rs) ->
  forall on ov, any_order on -> any_order ov -> texts_once m1 -> texts_once m2 -> get_script m1 <> get_script m2 ->
  unambiguous when_of [m1; m2] -> unambiguous not_when_of [m1; m2] ->
  forall st, merge_lgr_set on ov [with_lgr m1 h1; with_lgr m2 h2] = Ok st ->
  forall a b, a <> b -> (has_target (lg_rep (mg_lgr st)) a b <-> chained (either m1 m2) a b).
Proof. exact harmonized_related. Qed.
Print Assumptions C102_related.

(** It relates a code point to itself where one of them did, and where one got
    the code point from the other. *)
Theorem C102_itself : forall order, rearranges order -> forall m1 m2 h1 h2 rs, proper (mb_lgr m1) -> proper (mb_lgr m2) ->
  unconditional m1 -> unconditional m2 -> complete m1 -> complete m2 -> harmonize order (mb_lgr m1) (mb_lgr m2) None = Ok (h1, h2, rs) ->
  forall on ov, any_order on -> any_order ov -> texts_once m1 -> texts_once m2 -> get_script m1 <> get_script m2 ->
  unambiguous when_of [m1; m2] -> unambiguous not_when_of [m1; m2] ->
  forall st, merge_lgr_set on ov [with_lgr m1 h1; with_lgr m2 h2] = Ok st ->
  forall a, has_target (lg_rep (mg_lgr st)) a a <-> gives m1 a a \/ gives m2 a a \/ gets m1 m2 a \/ gets m2 m1 a.
Proof. exact harmonized_itself. Qed.
Print Assumptions C102_itself.

(** With code points and variants one by one, two labels of the merged LGR
    collide exactly if chains of variants lead from one to the other. *)
Theorem C102_labels_partial : forall order, rearranges order -> forall m1 m2 h1 h2 rs, proper (mb_lgr m1) -> proper (mb_lgr m2) ->
  unconditional m1 -> unconditional m2 -> complete m1 -> complete m2 -> harmonize order (mb_lgr m1) (mb_lgr m2) None = Ok (h1, h2, rs) ->
  forall on ov, any_order on -> any_order ov -> texts_once m1 -> texts_once m2 -> get_script m1 <> get_script m2 ->
  unambiguous when_of [m1; m2] -> unambiguous not_when_of [m1; m2] ->
  forall st, merge_lgr_set on ov [with_lgr m1 h1; with_lgr m2 h2] = Ok st -> letters (lg_rep (mb_lgr m1)) -> letters (lg_rep (mb_lgr m2)) ->
  forall q rm, rebuilt (lg_rep (mg_lgr st)) q -> forall a b, in_lgr q a -> in_lgr q b ->
  exists ia ib, has_index rm q a ia /\ has_index rm q b ib /\
    (ia = ib <-> Forall2 (fun x y => chained (either m1 m2) [x] [y]) a b).
Proof. exact harmonized_labels. Qed.
Print Assumptions C102_labels_partial.

(** ** With a root zone LGR *)
(** The variants of the LGRs need not be symmetric and transitive then. *)
Theorem C102_root_harmonized : forall order m1 m2 z, rearranges order -> proper (mb_lgr m1) -> proper (mb_lgr m2) -> proper (mb_lgr z) ->
  exists h1 h2 rs, harmonize order (mb_lgr m1) (mb_lgr m2) (Some (mb_lgr z)) = Ok (h1, h2, rs).
Proof. exact root_exists. Qed.
Print Assumptions C102_root_harmonized.
Theorem C102_root_succeeds_exact : forall order, rearranges order -> forall m1 m2 z h1 h2 rs, proper (mb_lgr m1) -> proper (mb_lgr m2) -> proper (mb_lgr z) ->
  unconditional m1 -> unconditional m2 -> unconditional z -> harmonize order (mb_lgr m1) (mb_lgr m2) (Some (mb_lgr z)) = Ok (h1, h2, rs) ->
  forall on ov, any_order on -> any_order ov -> texts_once m1 -> texts_once m2 -> get_script m1 <> get_script m2 ->
  unambiguous when_of [m1; m2] -> unambiguous not_when_of [m1; m2] ->
  ((exists st, merge_lgr_set on ov [with_lgr m1 h1; with_lgr m2 h2] = Ok st) <-> same_rules when_of [m1; m2] /\ same_rules not_when_of [m1; m2]).
Proof. exact root_merge. Qed.
Print Assumptions C102_root_succeeds_exact.
Theorem C102_root_complete : forall order, rearranges order -> forall m1 m2 z h1 h2 rs, proper (mb_lgr m1) -> proper (mb_lgr m2) -> proper (mb_lgr z) ->
  unconditional m1 -> unconditional m2 -> unconditional z -> harmonize order (mb_lgr m1) (mb_lgr m2) (Some (mb_lgr z)) = Ok (h1, h2, rs) ->
  forall on ov, any_order on -> any_order ov -> texts_once m1 -> texts_once m2 -> get_script m1 <> get_script m2 ->
  unambiguous when_of [m1; m2] -> unambiguous not_when_of [m1; m2] ->
  forall st, merge_lgr_set on ov [with_lgr m1 h1; with_lgr m2 h2] = Ok st -> symmetric (lg_rep (mg_lgr st)) /\ transitive (lg_rep (mg_lgr st)).
Proof. exact root_complete. Qed.
Print Assumptions C102_root_complete.
(** The variants of the root zone count for the code points one of the two has,
    and for no others. *)
Theorem C102_root_related : forall order, rearranges order -> forall m1 m2 z h1 h2 rs, proper (mb_lgr m1) -> proper (mb_lgr m2) -> proper (mb_lgr z) ->
  unconditional m1 -> unconditional m2 -> unconditional z -> harmonize order (mb_lgr m1) (mb_lgr m2) (Some (mb_lgr z)) = Ok (h1, h2, rs) ->
  forall on ov, any_order on -> any_order ov -> texts_once m1 -> texts_once m2 -> get_script m1 <> get_script m2 ->
  unambiguous when_of [m1; m2] -> unambiguous not_when_of [m1; m2] ->
  forall st, merge_lgr_set on ov [with_lgr m1 h1; with_lgr m2 h2] = Ok st ->
  forall a b, a <> b -> (has_target (lg_rep (mg_lgr st)) a b <-> chained (zoned m1 m2 z) a b).
Proof. exact root_related. Qed.
Print Assumptions C102_root_related.
Theorem C102_root_labels_partial : forall order, rearranges order -> forall m1 m2 z h1 h2 rs, proper (mb_lgr m1) -> proper (mb_lgr m2) -> proper (mb_lgr z) ->
  unconditional m1 -> unconditional m2 -> unconditional z -> harmonize order (mb_lgr m1) (mb_lgr m2) (Some (mb_lgr z)) = Ok (h1, h2, rs) ->
  forall on ov, any_order on -> any_order ov -> texts_once m1 -> texts_once m2 -> get_script m1 <> get_script m2 ->
  unambiguous when_of [m1; m2] -> unambiguous not_when_of [m1; m2] ->
  forall st, merge_lgr_set on ov [with_lgr m1 h1; with_lgr m2 h2] = Ok st ->
  letters (lg_rep (mb_lgr m1)) -> letters (lg_rep (mb_lgr m2)) -> letters (lg_rep (mb_lgr z)) ->
  forall q rm, rebuilt (lg_rep (mg_lgr st)) q -> forall a b, in_lgr q a -> in_lgr q b ->
  exists ia ib, has_index rm q a ia /\ has_index rm q b ib /\
    (ia = ib <-> Forall2 (fun x y => chained (zoned m1 m2 z) [x] [y]) a b).
Proof. exact root_labels. Qed.
Print Assumptions C102_root_labels_partial.
(** 1, 2 in the first LGR, 3, 4 in the second one, 2, 3 in the root zone. *)
Example C102_root_witness : (proper (mb_lgr part_a) /\ proper (mb_lgr part_b) /\ proper (mb_lgr part_c)) /\ (unconditional part_a /\ unconditional part_b /\ unconditional part_c) /\
  (texts_once part_a /\ texts_once part_b) /\ get_script part_a <> get_script part_b /\ unambiguous when_of [part_a; part_b] /\ unambiguous not_when_of [part_a; part_b] /\
  (letters (lg_rep (mb_lgr part_a)) /\ letters (lg_rep (mb_lgr part_b)) /\ letters (lg_rep (mb_lgr part_c))) /\ same_rules when_of [part_a; part_b] /\ same_rules not_when_of [part_a; part_b].
Proof. exact root_meets_all. Qed.
Example C102_root_result_witness :
  indices (root_merged part_a part_b (Some (mb_lgr part_c))) [[1]; [2]; [3]; [4]; [1; 4]] = Some (true, [Ok [1]; Ok [1]; Ok [1]; Ok [1]; Ok [1; 1]]) /\
  indices (root_merged part_a part_b None) [[1]; [2]; [3]; [4]; [1; 4]] = Some (true, [Ok [1]; Ok [1]; Ok [3]; Ok [3]; Ok [1; 3]]).
Proof. exact root_pair_result. Qed.

(** But it does not say the same of a label: one valid in the first LGR, and in
    the two merged as they are, is blocked. *)
Theorem C102_valid_label_refuted : exists rm m1 m2 h1 h2 rs st q st' q' label e e' e'', proper (mb_lgr m1) /\ proper (mb_lgr m2) /\ complete m1 /\ complete m2 /\
  (forall m c, In m [m1; m2] -> when_of m c = None /\ not_when_of m c = None) /\
  harmonize as_is (mb_lgr m1) (mb_lgr m2) None = Ok (h1, h2, rs) /\ merge_given [with_lgr m1 h1; with_lgr m2 h2] = Ok st /\ rebuilt (lg_rep (mg_lgr st)) q /\
  merge_given [m1; m2] = Ok st' /\ rebuilt (lg_rep (mg_lgr st')) q' /\
  test_label_eligible rm (lg_rep (mb_lgr m1)) (mb_actions m1) label false = Ok e /\ el_disp e = Some "valid" /\
  test_label_eligible rm q' (mg_actions st') label false = Ok e' /\ el_disp e' = Some "valid" /\
  test_label_eligible rm q (mg_actions st) label false = Ok e'' /\ el_disp e'' = Some "blocked".
Proof. exact label_blocked. Qed.
Print Assumptions C102_valid_label_refuted.
(** Nor can all be merged: two LGRs with the same contents, where variants have a
    context rule, refuse each other, harmonized or not. *)
Theorem C102_context_refuted : exists m1 m2 e, proper (mb_lgr m1) /\ proper (mb_lgr m2) /\ texts_once m1 /\ texts_once m2 /\ get_script m1 <> get_script m2 /\
  mb_lgr m1 = mb_lgr m2 /\ symmetric (lg_rep (mb_lgr m1)) /\ transitive (lg_rep (mb_lgr m1)) /\ merge_given [m1; m2] = Raise e /\
  exists h1 h2 rs, harmonize as_is (mb_lgr m1) (mb_lgr m2) None = Ok (h1, h2, rs) /\ merge_given [with_lgr m1 h1; with_lgr m2 h2] = Raise e.
Proof. exact (ex_intro _ when_a (ex_intro _ when_b (ex_intro _ _ when_stops))). Qed.
Print Assumptions C102_context_refuted.

(** The hypotheses are met. *)
Example C102_pair_witness : proper (mb_lgr part_a) /\ proper (mb_lgr part_c) /\ (unconditional part_a /\ unconditional part_c) /\ (complete part_a /\ complete part_c) /\
  (texts_once part_a /\ texts_once part_c) /\ get_script part_a <> get_script part_c /\ unambiguous when_of [part_a; part_c] /\ unambiguous not_when_of [part_a; part_c] /\
  (letters (lg_rep (mb_lgr part_a)) /\ letters (lg_rep (mb_lgr part_c))) /\ same_rules when_of [part_a; part_c] /\ same_rules not_when_of [part_a; part_c].
Proof. exact pair_meets_all. Qed.
Example C102_result_witness : shown_merge (harm_merge part_a part_c) [[1]; [2]; [3]] = Some (
    [Some (Some "Out-of-repertoire", [], [], None, [([1], None); ([2], None); ([3], None)]);
     Some (None, [], [], None, [([1], None); ([3], None)]);
     Some (Some "Out-of-repertoire", [], [], None, [([1], None); ([2], None); ([3], None)])], [], [], [], 0%nat) /\
  indices (harm_merge part_a part_c) [[1]; [2]; [3]; [1; 3]; [3; 2]] = Some (true, [Ok [1]; Ok [1]; Ok [1]; Ok [1; 1]; Ok [1; 1]]).
Proof. exact pair_result. Qed.
