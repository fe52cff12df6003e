(** C95. Labels colliding in LGRs that were harmonized or merged.

    Two harmonized LGRs, or a member and the LGR merged from a set, find the
    same collisions.  [letters]: code points and variants one by one, without
    context rules; [rebuilt]: the merged LGR as read back. *)
From Coq Require Import Permutation.
From Verif Require Import Base CharModel RepSpec ActionModel LabelModel LabelSpec RefModel LgrModel LgrSpec LgrFinal PopulateSpec PopulateFinal ValidateModel ValidateSpec ValidateFinal
  CompareModel HarmonizeModel HarmonizeSpec HarmonizeProofs HarmonizeWitness MergeModel MergeSpec MergeWitness CombineSpec CombineFinal CombineWitness.
Open Scope N_scope.
Open Scope list_scope.

(** Two harmonized LGRs, complete before: the same index for a label of both,
    and labels of different ones collide when they are variants. *)
Theorem C95_harmonized_partial : forall order g1 g2 h1 h2 rs rm rm', rearranges order -> tidy g1 -> tidy g2 -> letters (lg_rep g1) -> letters (lg_rep g2) ->
  symmetric (lg_rep g1) -> transitive (lg_rep g1) -> symmetric (lg_rep g2) -> transitive (lg_rep g2) -> harmonize order g1 g2 None = Ok (h1, h2, rs) ->
  (forall a, in_lgr (lg_rep h1) a -> in_lgr (lg_rep h2) a -> exists i, has_index rm (lg_rep h1) a i /\ has_index rm' (lg_rep h2) a i) /\
  (forall a b, in_lgr (lg_rep h1) a -> in_lgr (lg_rep h2) b -> exists ia ib, has_index rm (lg_rep h1) a ia /\ has_index rm' (lg_rep h2) b ib /\
     (ia = ib <-> in_lgr (lg_rep h1) b /\ variant_labels (lg_rep h1) a b)).
Proof. exact harmonized_index. Qed.
Print Assumptions C95_harmonized_partial.
Example C95_harmonized_sample : tidy (lgr_of left_ops) /\ tidy (lgr_of right_ops) /\ letters (lg_rep (lgr_of left_ops)) /\ letters (lg_rep (lgr_of right_ops)) /\
  complete_ops left_ops /\ complete_ops right_ops /\
  index_pair (harmonize as_is (lgr_of left_ops) (lgr_of right_ops) None) [2; 5] [3; 6] = Some (Ok [1; 5], Ok [1; 5]) /\
  index_pair (harmonize as_is (lgr_of left_ops) (lgr_of right_ops) None) [2; 2] [3; 6] = Some (Ok [1; 1], Ok [1; 5]).
Proof. exact harm_sample. Qed.
(** With the LGR of the root zone they need not be complete before. *)
Theorem C95_harmonized_root : forall order g1 g2 z h1 h2 rs rm rm', rearranges order -> tidy g1 -> tidy g2 -> tidy z ->
  letters (lg_rep g1) -> letters (lg_rep g2) -> letters (lg_rep z) -> harmonize order g1 g2 (Some z) = Ok (h1, h2, rs) ->
  (forall a, in_lgr (lg_rep h1) a -> in_lgr (lg_rep h2) a -> exists i, has_index rm (lg_rep h1) a i /\ has_index rm' (lg_rep h2) a i) /\
  (forall a b, in_lgr (lg_rep h1) a -> in_lgr (lg_rep h2) b -> exists ia ib, has_index rm (lg_rep h1) a ia /\ has_index rm' (lg_rep h2) b ib /\
     (ia = ib <-> in_lgr (lg_rep h1) b /\ variant_labels (lg_rep h1) a b)).
Proof. exact harmonized_index_root. Qed.
Print Assumptions C95_harmonized_root.
Example C95_root_sample : tidy (lgr_of long_chain) /\ tidy (lgr_of two_alone) /\ tidy (lgr_of right_ops) /\
  letters (lg_rep (lgr_of long_chain)) /\ letters (lg_rep (lgr_of two_alone)) /\ letters (lg_rep (lgr_of right_ops)) /\
  index_pair (harmonize as_is (lgr_of long_chain) (lgr_of two_alone) (Some (lgr_of right_ops))) [3] [3] = Some (Ok [1], Ok [1]).
Proof. exact root_sample. Qed.
(** Labels of a harmonized LGR collide exactly when their code points are
    joined by variants of the two LGRs. *)
Theorem C95_harmonized_exact : forall order g1 g2 h1 h2 rs rm, rearranges order -> tidy g1 -> tidy g2 -> letters (lg_rep g1) -> letters (lg_rep g2) ->
  harmonize order g1 g2 None = Ok (h1, h2, rs) ->
  forall a b, in_lgr (lg_rep h1) a -> in_lgr (lg_rep h1) b -> exists ia ib, has_index rm (lg_rep h1) a ia /\ has_index rm (lg_rep h1) b ib /\
    (ia = ib <-> Forall2 (fun x y => chained (pooled (lg_rep g1) (lg_rep g2)) [x] [y]) a b).
Proof. exact harmonized_collisions. Qed.
Print Assumptions C95_harmonized_exact.
(** No collision of the LGR given is lost, with a root zone LGR or without. *)
Theorem C95_harmonized_keeps : forall order g1 g2 root h1 h2 rs, rearranges order -> tidy g1 -> tidy g2 -> (forall z, root = Some z -> tidy z) ->
  letters (lg_rep g1) -> letters (lg_rep g2) -> (forall z, root = Some z -> letters (lg_rep z)) -> harmonize order g1 g2 root = Ok (h1, h2, rs) ->
  forall rm a b, in_lgr (lg_rep g1) a -> in_lgr (lg_rep g1) b -> variant_labels (lg_rep g1) a b ->
  exists i, has_index rm (lg_rep h1) a i /\ has_index rm (lg_rep h1) b i.
Proof. exact harm_keeps. Qed.
Print Assumptions C95_harmonized_keeps.
(** Not transitive before, a label of both gets two indices. *)
Theorem C95_harmonized_refuted : exists g1 g2 h1 h2 rs a, tidy g1 /\ tidy g2 /\ letters (lg_rep g1) /\ letters (lg_rep g2) /\ symmetric (lg_rep g1) /\ symmetric (lg_rep g2) /\
  harmonize as_is g1 g2 None = Ok (h1, h2, rs) /\ in_lgr (lg_rep g1) a /\ in_lgr (lg_rep g2) a /\
  forall rm, index_label rm (lg_rep h1) 0 false a <> index_label rm (lg_rep h2) 0 false a.
Proof. exact harm_index_differs. Qed.
Print Assumptions C95_harmonized_refuted.

(** Members without a common code point: the merged LGR gives labels of a
    member the index the member gives, and they collide with no others. *)
Theorem C95_merged_partial : forall ord_names ord_variants, any_order ord_variants ->
  forall l st q rm rm', (forall m, In m l -> tidy (mb_lgr m) /\ letters (lg_rep (mb_lgr m)) /\ complete m) -> (forall c, ~ in_two l c) ->
  merge_lgr_set ord_names ord_variants l = Ok st -> rebuilt (lg_rep (mg_lgr st)) q ->
  forall m, In m l -> (forall a, in_lgr (lg_rep (mb_lgr m)) a -> exists i, has_index rm (lg_rep (mb_lgr m)) a i /\ has_index rm' q a i) /\
  forall a b, in_lgr (lg_rep (mb_lgr m)) a -> in_lgr q b -> exists ia ib, has_index rm' q a ia /\ has_index rm' q b ib /\
    (ia = ib <-> in_lgr (lg_rep (mb_lgr m)) b /\ variant_labels (lg_rep (mb_lgr m)) a b).
Proof. exact merged_index. Qed.
Print Assumptions C95_merged_partial.
Example C95_merged_sample : all_good [part_a; part_b] /\
  indices (merge_given [part_a; part_b]) [[2; 4]; [1; 3]; [2]] = Some (true, [Ok [1; 3]; Ok [1; 3]; Ok [1]]).
Proof. exact apart_sample. Qed.
(** With common code points, when the merged LGR is transitive: labels collide
    when they are variants in it, and those of a member still do. *)
Theorem C95_merged_keeps_partial : forall ord_names ord_variants, any_order ord_variants ->
  forall l st q rm, (forall m, In m l -> tidy (mb_lgr m) /\ letters (lg_rep (mb_lgr m)) /\ symmetric (lg_rep (mb_lgr m))) ->
  merge_lgr_set ord_names ord_variants l = Ok st -> transitive (lg_rep (mg_lgr st)) -> rebuilt (lg_rep (mg_lgr st)) q ->
  (forall a b, in_lgr q a -> in_lgr q b -> exists ia ib, has_index rm q a ia /\ has_index rm q b ib /\ (ia = ib <-> variant_labels (lg_rep (mg_lgr st)) a b)) /\
  forall m a b, In m l -> in_lgr (lg_rep (mb_lgr m)) a -> in_lgr (lg_rep (mb_lgr m)) b -> variant_labels (lg_rep (mb_lgr m)) a b ->
    exists i, has_index rm q a i /\ has_index rm q b i.
Proof. exact merged_keeps. Qed.
Print Assumptions C95_merged_keeps_partial.
(** It is for two complete members sharing one code point at most. *)
Theorem C95_merged_pair : forall ord_names ord_variants, any_order ord_variants ->
  forall m1 m2 st q rm s, (forall m, In m [m1; m2] -> tidy (mb_lgr m) /\ letters (lg_rep (mb_lgr m)) /\ complete m) ->
  (forall c, has_cp m1 c -> has_cp m2 c -> c = s) -> merge_lgr_set ord_names ord_variants [m1; m2] = Ok st -> rebuilt (lg_rep (mg_lgr st)) q ->
  (forall a b, in_lgr q a -> in_lgr q b -> exists ia ib, has_index rm q a ia /\ has_index rm q b ib /\ (ia = ib <-> variant_labels (lg_rep (mg_lgr st)) a b)) /\
  forall m a b, In m [m1; m2] -> in_lgr (lg_rep (mb_lgr m)) a -> in_lgr (lg_rep (mb_lgr m)) b -> variant_labels (lg_rep (mb_lgr m)) a b ->
    exists i, has_index rm q a i /\ has_index rm q b i.
Proof. exact merged_pair_keeps. Qed.
Print Assumptions C95_merged_pair.
Example C95_pair_sample : all_good [part_a; part_c] /\ (forall c, has_cp part_a c -> has_cp part_c c -> c = [2]) /\
  indices (merge_given [part_a; part_c]) [[2]; [1]; [3]] = Some (true, [Ok [1]; Ok [1]; Ok [1]]).
Proof. exact shared_sample. Qed.
(** Complete members in general: labels colliding in a member need not collide
    in the merged LGR. *)
Theorem C95_merged_refuted : exists l st q m a b, all_good l /\ NoDup (map get_script l) /\ merge_given l = Ok st /\ rebuilt (lg_rep (mg_lgr st)) q /\ In m l /\
  in_lgr (lg_rep (mb_lgr m)) a /\ in_lgr (lg_rep (mb_lgr m)) b /\ variant_labels (lg_rep (mb_lgr m)) a b /\
  forall rm, index_label rm q 0 false a <> index_label rm q 0 false b.
Proof. exact merge_loses. Qed.
Print Assumptions C95_merged_refuted.
