(** Labels, once pairs were harmonized again and again and all merged. *)
From Coq Require Import Permutation.
From Verif Require Import Base BaseFacts CharModel RepSpec RepProofs LabelModel LabelSpec LgrModel LgrSpec LgrProofs LgrReach LgrInv LgrFinal.
From Verif Require Import ValidateModel ValidateSpec ValidateProofs HarmonizeModel HarmonizeSpec HarmonizeProofs HarmonizeFinal HarmonizeCopy.
From Verif Require Import SerialSpec SerialFinal MergeModel MergeSpec MergeFinal MergeContext MergeSucceedSpec MergePairExact CombineSpec CombineIndex CombineFinal HarmMergeSpec HarmMerge HarmRoot MergeGlueSpec MergeGlue MergeSame MergeRun.
Open Scope N_scope.
Open Scope list_scope.

Lemma letters_free : forall m, letters (lg_rep (mb_lgr m)) -> MergeSpec.unconditional m.
Proof. intros m C a b v [ch [X1 [X2 X3]]]. destruct (C _ _ X1) as [_ [_ [_ V]]]. destruct (V v X2) as [V1 [V2 _]]. auto. Qed.
Lemma run_letters : forall l l', harmonized_run l l' -> (forall m, In m l -> ready m) -> (forall m, In m l -> letters (lg_rep (mb_lgr m))) -> forall m, In m l' -> letters (lg_rep (mb_lgr m)).
Proof.
  intros l l' R. induction R as [l|l m1 m2 rest order h1 h2 rs l' P Po E R IH]; intros G L; [exact L|]. apply IH; [apply (pair_ready order Po l rest m1 m2 h1 h2 rs P E G)|].
  pose proof (in1 l rest m1 m2 P) as I1. pose proof (in2 l rest m1 m2 P) as I2.
  destruct (harm_simple order _ _ None h1 h2 rs Po (proper_tidy _ (proj1 (G m1 I1))) (proper_tidy _ (proj1 (G m2 I2)))) as [M1 [M2 _]]; auto; try discriminate.
  intros m [<-|[<-|H]]; [exact M1|exact M2|]. apply L, (in_rest l rest m1 m2 P m H).
Qed.

Section Ord.
  Variable ord_names : list string -> list string.
  Variable ord_variants : list variant -> list variant.
  Hypothesis Pn : any_order ord_names.
  Hypothesis Pv : any_order ord_variants.

  Theorem run_labels : forall l l', (forall m, In m l -> proper (mb_lgr m) /\ texts_once m /\ letters (lg_rep (mb_lgr m)) /\ complete m) -> NoDup (map get_script l) ->
    unambiguous when_of l -> unambiguous not_when_of l -> harmonized_run l l' ->
    (forall m m', In m l' -> In m' l' -> get_script m <> get_script m' -> settled_pair m m') ->
    forall st q rm, merge_lgr_set ord_names ord_variants l' = Ok st -> rebuilt (lg_rep (mg_lgr st)) q ->
    forall a b, in_lgr q a -> in_lgr q b -> exists ia ib, has_index rm q a ia /\ has_index rm q b ib /\
      (ia = ib <-> Forall2 (fun x y => chained (some_gives l) [x] [y]) a b).
  Proof.
    intros l l' Hl Hn U1 U2 R S st q rm E B a b Ha Hb.
    assert (G : forall m, In m l -> ready m) by (intros m Hm; destruct (Hl m Hm) as [X1 [X2 [X3 X4]]]; split; [exact X1|]; split; [exact X2|]; split; [apply letters_free; exact X3|exact X4]).
    destruct (run_merged ord_names ord_variants Pn Pv l l' G Hn U1 U2 R S) as [_ Rs]. destruct (Rs st E) as [_ [Tr Re]]. destruct (run_keeps l l' R G) as [A _].
    destruct (merged_keeps ord_names ord_variants Pv l' st q rm) as [H _]; [|exact E|exact Tr|exact B|].
    { intros m Hm. split; [apply proper_tidy, (A m Hm)|]. split; [apply (run_letters l l' R G (fun x Hx => proj1 (proj2 (proj2 (Hl x Hx)))) m Hm)|apply (A m Hm)]. }
    destruct (H a b Ha Hb) as [ia [ib [I1 [I2 I3]]]]. exists ia, ib. split; [exact I1|]. split; [exact I2|]. rewrite I3. unfold variant_labels.
    assert (Q : forall x y : N, (x = y \/ has_target (lg_rep (mg_lgr st)) [x] [y]) <-> chained (some_gives l) [x] [y]).
    { intros x y. destruct (N.eq_dec x y) as [<-|Nx].
      - split; [intros _; apply chained_refl|auto].
      - assert (Nc : [x] <> [y]) by congruence. rewrite <- (Re _ _ Nc). tauto. }
    apply forall2_iff. exact Q.
  Qed.
End Ord.
