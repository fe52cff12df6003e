(** C103. Sets of LGRs that are merged to one with complete variants.

    Merged as they are, LGRs with complete variants need not give one: see
    C38_script_names_refuted.  They do where they are [glued]: in the order of
    the scripts, a code point shared with those before is the only such one of
    its variants, or one side knows all the variants of the other. *)
From Coq Require Import Permutation.
From Verif Require Import Base CharModel RepSpec ActionModel LabelModel LabelSpec LgrModel LgrSpec ValidateModel ValidateSpec SerialSpec HarmonizeModel HarmonizeSpec
  MergeModel MergeSpec MergeWitness MergeSucceedSpec CombineSpec CombineWitness MergeTurnWitness MergeGlueSpec MergeGlue MergeGlueWitness MergeFit MergeFitPair MergeFitWitness HarmMergeSpec MergeSame MergeSameWitness MergeRoundWitness MergeRun MergeSettle MergeOutcome MergeRunLabels MergeRunWitness.
Open Scope string_scope.
Open Scope N_scope.
Open Scope list_scope.

(** The merge succeeds exactly if they ask for the same rules, and relates code
    points exactly if a chain of the members' variants leads from one to the
    other. *)
Theorem C103_glued : forall on ov, any_order on -> any_order ov -> forall l l',
  (forall m, In m l -> proper (mb_lgr m) /\ texts_once m /\ unconditional m /\ complete m) -> NoDup (map sort_key l) -> unambiguous when_of l -> unambiguous not_when_of l ->
  Permutation l l' -> in_script_order l' -> glued l' ->
  ((exists st, merge_lgr_set on ov l = Ok st) <-> same_rules when_of l /\ same_rules not_when_of l) /\
  forall st, merge_lgr_set on ov l = Ok st ->
    symmetric (lg_rep (mg_lgr st)) /\ transitive (lg_rep (mg_lgr st)) /\
    (forall a b, a <> b -> (has_target (lg_rep (mg_lgr st)) a b <-> chained (some_gives l) a b)) /\
    (forall a, has_target (lg_rep (mg_lgr st)) a a <-> some_gives l a a).
Proof. exact glued_in_order. Qed.
Print Assumptions C103_glued.
(** With one code point in common at most, in whatever order. *)
Theorem C103_one_shared : forall on ov, any_order on -> any_order ov -> forall l c0,
  (forall m, In m l -> proper (mb_lgr m) /\ texts_once m /\ unconditional m /\ complete m) -> NoDup (map get_script l) -> unambiguous when_of l -> unambiguous not_when_of l ->
  (forall c, in_two l c -> c = c0) ->
  ((exists st, merge_lgr_set on ov l = Ok st) <-> same_rules when_of l /\ same_rules not_when_of l) /\
  forall st, merge_lgr_set on ov l = Ok st ->
    symmetric (lg_rep (mg_lgr st)) /\ transitive (lg_rep (mg_lgr st)) /\
    (forall a b, a <> b -> (has_target (lg_rep (mg_lgr st)) a b <-> chained (some_gives l) a b)) /\
    (forall a, has_target (lg_rep (mg_lgr st)) a a <-> some_gives l a a).
Proof. exact hub_merge. Qed.
Print Assumptions C103_one_shared.
(** Labels, where code points and variants are one by one: they collide exactly if such chains lead
    from each character to the one at its place. *)
Theorem C103_labels : forall on ov, any_order on -> any_order ov -> forall l l',
  (forall m, In m l -> proper (mb_lgr m) /\ texts_once m /\ letters (lg_rep (mb_lgr m)) /\ complete m) -> NoDup (map sort_key l) -> unambiguous when_of l -> unambiguous not_when_of l ->
  Permutation l l' -> in_script_order l' -> glued l' ->
  forall st q rm, merge_lgr_set on ov l = Ok st -> rebuilt (lg_rep (mg_lgr st)) q ->
  forall a b, in_lgr q a -> in_lgr q b -> exists ia ib, has_index rm q a ia /\ has_index rm q b ib /\
    (ia = ib <-> Forall2 (fun x y => chained (some_gives l) [x] [y]) a b).
Proof. exact labels_in_order. Qed.
Print Assumptions C103_labels.
(** The condition that cannot be weakened, of two shared code points: where both
    sides relate them, neither has a variant only the member gives and another
    the member lacks; where only those before relate them, not both get new
    variants from the member; where only the member does, not both have variants
    it lacks. *)
Theorem C103_fitted : forall on ov, any_order on -> any_order ov -> forall l l',
  (forall m, In m l -> proper (mb_lgr m) /\ texts_once m /\ unconditional m /\ complete m) -> NoDup (map sort_key l) -> unambiguous when_of l -> unambiguous not_when_of l ->
  Permutation l l' -> in_script_order l' -> fitted l' ->
  ((exists st, merge_lgr_set on ov l = Ok st) <-> same_rules when_of l /\ same_rules not_when_of l) /\
  forall st, merge_lgr_set on ov l = Ok st ->
    symmetric (lg_rep (mg_lgr st)) /\ transitive (lg_rep (mg_lgr st)) /\
    (forall a b, a <> b -> (has_target (lg_rep (mg_lgr st)) a b <-> chained (some_gives l) a b)) /\
    (forall a, has_target (lg_rep (mg_lgr st)) a a <-> some_gives l a a).
Proof. exact fitted_merge. Qed.
Print Assumptions C103_fitted.
(** All the beginnings of a set are merged to complete variants exactly if the
    LGRs ask for the same rules and meet the condition. *)
Theorem C103_fitted_exact : forall on ov, any_order on -> any_order ov -> forall l,
  (forall m, In m l -> proper (mb_lgr m) /\ texts_once m /\ unconditional m /\ complete m) -> NoDup (map sort_key l) -> unambiguous when_of l -> unambiguous not_when_of l ->
  in_script_order l ->
  ((forall before after, l = before ++ after -> exists st, merge_lgr_set on ov before = Ok st /\ symmetric (lg_rep (mg_lgr st)) /\ transitive (lg_rep (mg_lgr st))) <->
   same_rules when_of l /\ same_rules not_when_of l /\ fitted l).
Proof. exact fitted_exact. Qed.
Print Assumptions C103_fitted_exact.
(** Two LGRs, whichever comes first. *)
Theorem C103_pair_exact : forall on ov, any_order on -> any_order ov -> forall m1 m2, proper (mb_lgr m1) -> proper (mb_lgr m2) -> texts_once m1 -> texts_once m2 ->
  unconditional m1 -> unconditional m2 -> complete m1 -> complete m2 -> get_script m1 <> get_script m2 -> unambiguous when_of [m1; m2] -> unambiguous not_when_of [m1; m2] ->
  ((exists st, merge_lgr_set on ov [m1; m2] = Ok st /\ symmetric (lg_rep (mg_lgr st)) /\ transitive (lg_rep (mg_lgr st))) <->
   same_rules when_of [m1; m2] /\ same_rules not_when_of [m1; m2] /\ pair_fits m1 m2).
Proof. exact fitting_pair. Qed.
Print Assumptions C103_pair_exact.
Theorem C103_fitted_labels : forall on ov, any_order on -> any_order ov -> forall l l',
  (forall m, In m l -> proper (mb_lgr m) /\ texts_once m /\ letters (lg_rep (mb_lgr m)) /\ complete m) -> NoDup (map sort_key l) -> unambiguous when_of l -> unambiguous not_when_of l ->
  Permutation l l' -> in_script_order l' -> fitted l' ->
  forall st q rm, merge_lgr_set on ov l = Ok st -> rebuilt (lg_rep (mg_lgr st)) q ->
  forall a b, in_lgr q a -> in_lgr q b -> exists ia ib, has_index rm q a ia /\ has_index rm q b ib /\
    (ia = ib <-> Forall2 (fun x y => chained (some_gives l) [x] [y]) a b).
Proof. exact fitted_labels. Qed.
Print Assumptions C103_fitted_labels.
(** It is met by the sets of C103_glued. *)
Theorem C103_glued_fitted : forall l, glued l -> fitted l.
Proof. exact glued_fitted. Qed.
Print Assumptions C103_glued_fitted.
(** LGRs that give the same variants to the code points they share: nothing is
    added. *)
Theorem C103_same_variants : forall on ov, any_order on -> any_order ov -> forall l,
  (forall m, In m l -> proper (mb_lgr m) /\ texts_once m /\ unconditional m /\ complete m) -> NoDup (map get_script l) -> unambiguous when_of l -> unambiguous not_when_of l ->
  same_variants l ->
  ((exists st, merge_lgr_set on ov l = Ok st) <-> same_rules when_of l /\ same_rules not_when_of l) /\
  forall st, merge_lgr_set on ov l = Ok st ->
    symmetric (lg_rep (mg_lgr st)) /\ transitive (lg_rep (mg_lgr st)) /\ forall a b, has_target (lg_rep (mg_lgr st)) a b <-> some_gives l a b.
Proof. exact same_merge. Qed.
Print Assumptions C103_same_variants.
(** Those are the sets in which harmonizing any two adds nothing. *)
Theorem C103_settled : forall l, (forall m, In m l -> proper (mb_lgr m) /\ complete m) -> NoDup (map get_script l) ->
  (same_variants l <-> forall m m', In m l -> In m' l -> get_script m <> get_script m' -> settled_pair m m').
Proof. exact settled_exact. Qed.
Print Assumptions C103_settled.
(** Harmonizing each pair once does not lead there. *)
Theorem C103_one_round_refuted : exists m1 m2 m3 a1 b1 a2 c1 b2 c2 r s t, (forall m, In m [m1; m2; m3] -> proper (mb_lgr m) /\ complete m) /\ NoDup (map get_script [m1; m2; m3]) /\
  harmonize as_is (mb_lgr m1) (mb_lgr m2) None = Ok (a1, b1, r) /\ harmonize as_is a1 (mb_lgr m3) None = Ok (a2, c1, s) /\ harmonize as_is b1 c1 None = Ok (b2, c2, t) /\
  ~ same_variants [with_lgr m1 a2; with_lgr m2 b2; with_lgr m3 c2].
Proof. exact one_round_open. Qed.
Print Assumptions C103_one_round_refuted.
(** But however pairs are harmonized, once harmonizing any two adds nothing, the
    merge relates exactly what chains of the variants at the beginning join. *)
Theorem C103_harmonized : forall on ov, any_order on -> any_order ov -> forall l l',
  (forall m, In m l -> proper (mb_lgr m) /\ texts_once m /\ unconditional m /\ complete m) -> NoDup (map get_script l) -> unambiguous when_of l -> unambiguous not_when_of l ->
  harmonized_run l l' -> (forall m m', In m l' -> In m' l' -> get_script m <> get_script m' -> settled_pair m m') ->
  ((exists st, merge_lgr_set on ov l' = Ok st) <-> same_rules when_of l /\ same_rules not_when_of l) /\
  forall st, merge_lgr_set on ov l' = Ok st ->
    symmetric (lg_rep (mg_lgr st)) /\ transitive (lg_rep (mg_lgr st)) /\ forall a b, a <> b -> (has_target (lg_rep (mg_lgr st)) a b <-> chained (some_gives l) a b).
Proof. exact run_merged. Qed.
Print Assumptions C103_harmonized.
(** And such a point is always reached. *)
Theorem C103_settles : forall l, (forall m, In m l -> proper (mb_lgr m) /\ texts_once m /\ unconditional m /\ complete m) ->
  exists l', harmonized_run l l' /\ forall m m', In m l' -> In m' l' -> settled_pair m m'.
Proof. exact settling. Qed.
Print Assumptions C103_settles.
(** Whatever pairs are taken, as long as each adds something: there are not more
    of them than some number. *)
Theorem C103_rounds_end : forall l, (forall m, In m l -> proper (mb_lgr m) /\ texts_once m /\ unconditional m /\ complete m) ->
  exists k, forall n l', gaining_run n l l' -> (n <= k)%nat.
Proof. exact gaining_ends. Qed.
Print Assumptions C103_rounds_end.
(** What each LGR is then does not depend on the pairs taken: it has the code
    points joined to its own, and all their variants. *)
Theorem C103_outcome : forall l l', (forall m, In m l -> proper (mb_lgr m) /\ texts_once m /\ unconditional m /\ complete m) -> NoDup (map get_script l) ->
  harmonized_run l l' -> (forall m m', In m l' -> In m' l' -> get_script m <> get_script m' -> settled_pair m m') ->
  forall m m', In m l -> In m' l' -> get_script m = get_script m' ->
  (forall a, has_cp m' a <-> exists c, has_cp m c /\ chained (some_gives l) c a) /\
  forall a b, a <> b -> (gives m' a b <-> has_cp m' a /\ chained (some_gives l) a b).
Proof. exact outcome. Qed.
Print Assumptions C103_outcome.
(** Labels then have the same index exactly if such chains join them. *)
Theorem C103_harmonized_labels : forall on ov, any_order on -> any_order ov -> forall l l',
  (forall m, In m l -> proper (mb_lgr m) /\ texts_once m /\ letters (lg_rep (mb_lgr m)) /\ complete m) -> NoDup (map get_script l) -> unambiguous when_of l -> unambiguous not_when_of l ->
  harmonized_run l l' -> (forall m m', In m l' -> In m' l' -> get_script m <> get_script m' -> settled_pair m m') ->
  forall st q rm, merge_lgr_set on ov l' = Ok st -> rebuilt (lg_rep (mg_lgr st)) q ->
  forall a b, in_lgr q a -> in_lgr q b -> exists ia ib, has_index rm q a ia /\ has_index rm q b ib /\
    (ia = ib <-> Forall2 (fun x y => chained (some_gives l) [x] [y]) a b).
Proof. exact run_labels. Qed.
Print Assumptions C103_harmonized_labels.
(** The labels of each of them keep their index, and a label of the merged LGR
    collides with one of theirs exactly if it is a variant label of it there. *)
Theorem C103_same_labels : forall on ov, any_order on -> any_order ov -> forall l,
  (forall m, In m l -> proper (mb_lgr m) /\ texts_once m /\ letters (lg_rep (mb_lgr m)) /\ complete m) -> NoDup (map get_script l) -> unambiguous when_of l -> unambiguous not_when_of l ->
  same_variants l ->
  forall st q rm rm', merge_lgr_set on ov l = Ok st -> rebuilt (lg_rep (mg_lgr st)) q ->
  forall m, In m l -> (forall a, in_lgr (lg_rep (mb_lgr m)) a -> exists i, has_index rm (lg_rep (mb_lgr m)) a i /\ has_index rm' q a i) /\
  forall a b, in_lgr (lg_rep (mb_lgr m)) a -> in_lgr q b -> exists ia ib, has_index rm' q a ia /\ has_index rm' q b ib /\
    (ia = ib <-> in_lgr (lg_rep (mb_lgr m)) b /\ variant_labels (lg_rep (mb_lgr m)) a b).
Proof. exact same_labels. Qed.
Print Assumptions C103_same_labels.
(** In general a chain may be left out. *)
Theorem C103_chains_refuted : exists l st a b, (forall m, In m l -> proper (mb_lgr m) /\ texts_once m /\ unconditional m /\ complete m) /\ NoDup (map get_script l) /\
  merge_lgr_set given given l = Ok st /\ a <> b /\ chained (some_gives l) a b /\ ~ has_target (lg_rep (mg_lgr st)) a b.
Proof. exact chain_left_out. Qed.
Print Assumptions C103_chains_refuted.

(** 1, 2 and 2, 3 and 3, 4, in that order: the hypotheses are met. *)
Example C103_glued_witness : glued chain' /\ in_script_order chain' /\ NoDup (map sort_key chain') /\ unambiguous when_of chain' /\ unambiguous not_when_of chain' /\
  same_rules when_of chain' /\ same_rules not_when_of chain' /\
  (forall m, In m chain' -> proper (mb_lgr m) /\ texts_once m /\ letters (lg_rep (mb_lgr m)) /\ unconditional m /\ complete m) /\ chained (some_gives chain') [1] [4].
Proof. exact chain_meets. Qed.
(** The index labels, there and with 3, 4 before 2, 3. *)
Example C103_result_witness : indices (merge_lgr_set given given chain') [[1]; [2]; [3]; [4]; [4; 2]] = Some (true, [Ok [1]; Ok [1]; Ok [1]; Ok [1]; Ok [1; 1]]) /\
  indices (merge_lgr_set given given chain) [[1]; [4]; [2]] = Some (true, [Ok [1]; Ok [2]; Ok [1]]).
Proof. exact chain_indices. Qed.
Example C103_star_witness : (forall c, in_two star c -> c = [2]) /\ indices (merge_lgr_set given given star) [[1]; [2]; [3]; [4]] = Some (true, [Ok [1]; Ok [1]; Ok [1]; Ok [1]]).
Proof. exact (conj star_hub star_indices). Qed.
(** 1, 2 as variants, then 1, 3 as variants and 2: not glued, yet fitted.  The
    sample with 3, 4 before 2, 3 is not. *)
Example C103_fitted_witness : fitted apart /\ ~ glued apart /\ ~ fitted chain /\
  (in_script_order apart /\ NoDup (map sort_key apart) /\ (forall m, In m apart -> proper (mb_lgr m) /\ texts_once m /\ unconditional m /\ complete m) /\
   forall f, f = when_of \/ f = not_when_of -> unambiguous f apart /\ same_rules f apart) /\
  indices (merge_lgr_set given given apart) [[1]; [2]; [3]; [3; 2]] = Some (true, [Ok [1]; Ok [1]; Ok [1]; Ok [1; 1]]).
Proof. exact (conj apart_fitted (conj apart_not_glued (conj chain_not_fitted (conj apart_meets apart_indices)))). Qed.
(** The same two, and two that are merged with a chain left out. *)
Example C103_pair_witness : pair_fits part_a (of_ops "B" apart_ops) /\ ~ pair_fits (of_ops "A" gap_ops) (of_ops "B" (full [2; 3])) /\
  indices (merge_lgr_set given given [of_ops "A" gap_ops; of_ops "B" (full [2; 3])]) [[1]; [2]; [3]; [4]] = Some (true, [Ok [1]; Ok [1]; Ok [1]; Ok [2]]).
Proof. exact (conj apart_pair (conj gap_misfit gap_indices)). Qed.
(** 1, 2 in two LGRs, 3, 4 in two of them, 5, 6 in one. *)
Example C103_same_witness : same_variants alike_all /\
  (NoDup (map get_script alike_all) /\ (forall m, In m alike_all -> proper (mb_lgr m) /\ texts_once m /\ letters (lg_rep (mb_lgr m)) /\ unconditional m /\ complete m) /\
   forall f, f = when_of \/ f = not_when_of -> unambiguous f alike_all /\ same_rules f alike_all) /\
  indices (merge_lgr_set given given alike_all) [[2]; [4; 1]; [7; 6]] = Some (true, [Ok [1]; Ok [3; 1]; Ok [7; 5]]).
Proof. exact (conj alike_same (conj alike_meets alike_indices)). Qed.
(** 1, 2 and 3, 4 and 2, 3: after three pairs nothing is added any more. *)
Example C103_harmonized_witness : (forall m, In m chain -> proper (mb_lgr m) /\ texts_once m /\ unconditional m /\ complete m) /\ NoDup (map get_script chain) /\
  (forall f, f = when_of \/ f = not_when_of -> unambiguous f chain /\ same_rules f chain) /\
  (forall m, In m chain -> letters (lg_rep (mb_lgr m))) /\
  exists l', harmonized_run chain l' /\ (forall m m', In m l' -> In m' l' -> get_script m <> get_script m' -> settled_pair m m') /\
  some_gives l' [1] [4] /\ ~ some_gives chain [1] [4].
Proof. exact (conj (fun m H => chain_all m (or_introl H)) (conj (proj1 chain_scripts) (conj (fun f => chain_clear chain f (or_introl eq_refl)) (conj chain_letters chain_settles)))). Qed.
Example C103_rounds_witness : (forall m, In m chain -> proper (mb_lgr m) /\ texts_once m /\ unconditional m /\ complete m) /\ exists l', gaining_run 1 chain l'.
Proof. exact (conj (fun m H => chain_all m (or_introl H)) chain_gains). Qed.
