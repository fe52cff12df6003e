(** Exactly when two members are merged to complete variants, and the labels of
    members that fit. *)
From Coq Require Import Permutation.
From Verif Require Import Base BaseFacts CharModel RepSpec RepProofs VariantProofs IterProofs VarSetSpec VarSetProofs.
From Verif Require Import RefModel RefSpec RefProofs ActionModel LgrModel LgrSpec LgrProofs LgrReach LgrInv LgrRefs LgrTags LgrFinal.
From Verif Require Import ValidateModel ValidateSpec ValidateProofs PopulateModel PopulateSpec PopulateProofs.
From Verif Require Import CompareModel CompareSpec CompareProofs HarmonizeModel HarmonizeSpec HarmonizeProofs HarmonizeFinal.
From Verif Require Import SerialSpec SerialFinal MergeModel MergeProofs MergeSteps MergeLoop MergeSpec MergeRefs MergeFold MergeFinal MergeContext MergeSucceedSpec MergeSucceed MergeAgree MergeCross MergePairExact MergeTurn.
From Verif Require Import LabelModel LabelSpec CombineSpec CombineFinal HarmMergeSpec HarmMerge HarmRoot MergeGlueSpec MergeGlue MeetRel MergeFit.
Open Scope string_scope.
Open Scope list_scope.

Lemma pair_fits_comm : forall m1 m2, pair_fits m1 m2 -> pair_fits m2 m1.
Proof. intros m1 m2 F c d N H1 H2 H3 H4. destruct (F c d N H2 H1 H4 H3) as [F1 [F2 F3]]. split; [|split]; [|exact F3|exact F2]. intros X Y [Z1 Z2]. apply (F1 Y X). auto. Qed.
Lemma first_fits : forall m, fits_here [] m.
Proof. intros m c d _ [x [[] _]]. Qed.
Lemma one_chained : forall m, complete m -> forall c d, chained (some_gives [m]) c d <-> c = d \/ gives m c d.
Proof.
  intros m Cm c d. split.
  - intro H. assert (G : forall x y, some_gives [m] x y -> gives m x y) by (intros x y [z [[<-|[]] X]]; exact X).
    induction H as [x|x y w S X IH|x y w S X IH]; [auto| |]; apply G in S; (destruct (cps_eq_dec x w) as [|N]; [auto|]).
    + destruct IH as [<-|IH]; [auto|]. right. apply (m_trans m Cm x y w); auto.
    + apply (m_sym m Cm) in S. destruct IH as [<-|IH]; [auto|]. right. apply (m_trans m Cm x y w); auto.
  - intros [<-|H]; [apply chained_refl|]. eapply chained_forth; [exists m; split; [left; reflexivity|exact H]|apply chained_refl].
Qed.
Lemma pair_here : forall m1 m2, complete m1 -> (fits_here [m1] m2 <-> pair_fits m1 m2).
Proof.
  intros m1 m2 C1. assert (Sh : forall c, some_has [m1] c <-> has_cp m1 c) by (intro c; split; [intros [x [[<-|[]] X]]; exact X|intro X; exists m1; cbn; auto]).
  assert (Nw : forall c, news [m1] m2 c <-> extra m1 m2 c).
  { intro c. unfold news, extra. split; intros [x X]; exists x; rewrite (one_chained m1 C1) in *; [destruct X as [X1 X2]; split; [intros ->; auto|auto]|destruct X as [X1 [X2 X3]]; split; [exact X2|intros [->|X4]; auto]]. }
  assert (Lk : forall c, lacks [m1] m2 c <-> extra m2 m1 c).
  { intro c. unfold lacks, extra. split; intros [y Y]; exists y; rewrite (one_chained m1 C1) in *; [destruct Y as [[->|Y1] [Y2 Y3]]; [congruence|auto]|destruct Y as [Y1 [Y2 Y3]]; auto]. }
  split; intros F c d N.
  - intros H1 H2 H3 H4. destruct (F c d N) as [F1 [F2 F3]]; [apply Sh; exact H1|exact H2|apply Sh; exact H3|exact H4|]. rewrite (one_chained m1 C1) in *. rewrite !Nw, !Lk in *. split; [|split].
    + intros X Y. apply F1; auto.
    + intros X Y. apply F2; auto.
    + intros X Y. apply F3; [exact X|]. intros [Z|Z]; auto.
  - intros H1 H2 H3 H4. apply Sh in H1. apply Sh in H3. destruct (F c d N H1 H2 H3 H4) as [F1 [F2 F3]]. rewrite (one_chained m1 C1). rewrite !Nw, !Lk. split; [|split].
    + intros [X|X] Y; [congruence|]. auto.
    + intros [X|X] Y; [congruence|]. auto.
    + intros X Y. apply F3; auto.
Qed.
Lemma pair_fitted : forall m1 m2, complete m1 -> (fitted [m1; m2] <-> pair_fits m1 m2).
Proof.
  intros m1 m2 C1. rewrite <- (pair_here m1 m2 C1). split.
  - intro F. exact (F [m1] m2 [] eq_refl).
  - intros F before m after E. destruct before as [|b1 [|b2 before]]; cbn [app] in E.
    + exact (first_fits m).
    + injection E as <- <- _. exact F.
    + injection E as _ _ E. destruct before; discriminate.
Qed.

Section Ord.
  Variable ord_names : list string -> list string.
  Variable ord_variants : list variant -> list variant.
  Hypothesis Pn : any_order ord_names.
  Hypothesis Pv : any_order ord_variants.

  Theorem fitting_pair : forall m1 m2, proper (mb_lgr m1) -> proper (mb_lgr m2) -> texts_once m1 -> texts_once m2 -> unconditional m1 -> unconditional m2 -> complete m1 -> complete m2 ->
    get_script m1 <> get_script m2 -> unambiguous when_of [m1; m2] -> unambiguous not_when_of [m1; m2] ->
    ((exists st, merge_lgr_set ord_names ord_variants [m1; m2] = Ok st /\ symmetric (lg_rep (mg_lgr st)) /\ transitive (lg_rep (mg_lgr st))) <->
     same_rules when_of [m1; m2] /\ same_rules not_when_of [m1; m2] /\ pair_fits m1 m2).
  Proof.
    intros m1 m2 P1 P2 O1 O2 N1 N2 C1 C2 Hs U1 U2.
    destruct (in_turn ord_names ord_variants Pn Pv [m1; m2]) as [k [Kp [_ [Ex Tg]]]]; auto.
    { intros m [<-|[<-|[]]]; auto. }
    { cbn. constructor; [intros [H|[]]; congruence|constructor; [intros []|constructor]]. }
    assert (K : exists a b, k = [a; b] /\ complete a /\ complete b /\ (pair_fits a b <-> pair_fits m1 m2) /\ forall c, (some_has [a; b] c -> has_cp m1 c \/ has_cp m2 c)).
    { assert (T : forall x y c, (x = m1 /\ y = m2) \/ (x = m2 /\ y = m1) -> some_has [x; y] c -> has_cp m1 c \/ has_cp m2 c).
      { intros x y c [[-> ->]|[-> ->]] [z [[<-|[<-|[]]] Z]]; auto. }
      apply Permutation_length_2_inv in Kp. destruct Kp as [-> | ->]; [exists m1, m2|exists m2, m1]; (split; [reflexivity|]); (split; [assumption|]); (split; [assumption|]); (split; [|intro c; apply T; auto]); [reflexivity|]. split; apply pair_fits_comm. }
    destruct K as [a [b [-> [Ca [Cb [Pf Sh]]]]]].
    assert (Cl : forall m, In m [a; b] -> complete m) by (intros m [<-|[<-|[]]]; assumption).
    rewrite <- Pf, <- (pair_fitted a b Ca). split.
    - intros [st [M [S T]]]. destruct (proj1 Ex (ex_intro _ st M)) as [R1 [R2 A]]. split; [exact R1|]. split; [exact R2|].
      intros before m after E. apply (fit_back [a; b] [] no_one nothing closed_start nothing_decided Cl A) with (after := after); [|exact E].
      intros b1 a1 E1. specialize (Tg st M). destruct b1 as [|x [|y [|z b1]]]; cbn [app] in E1.
      + intros x y z [].
      + injection E1 as <- _. cbn [related_after]. intros x y z X Y N. pose proof (fit_closed [] no_one nothing a closed_start nothing_decided Ca (first_fits a)) as C.
        eapply (r_trans _ _ _ C x y z); eauto.
      + injection E1 as <- <- _. intros x y z X Y N. apply Tg. apply Tg in X. apply Tg in Y. apply (proj2 (T x y X) z Y N).
      + injection E1 as _ _ E1. discriminate.
    - intros [R1 [R2 F]]. destruct (fit_all [a; b] [] no_one nothing closed_start nothing_decided F Cl) as [A [K [C _]]]. destruct (proj2 Ex (conj R1 (conj R2 A))) as [st M].
      exists st. split; [exact M|]. specialize (Tg st M). cbn [app] in C.
      assert (Hk : forall x y, has_target (lg_rep (mg_lgr st)) x y -> lookup (lg_rep (mg_lgr st)) y <> None).
      { intros x y T. apply Tg in T. destruct (cl_in _ _ _ C _ _ T) as [_ T']. apply (cl_has _ _ _ C) in T'. apply Sh in T'.
        assert (T0 : forall z, In z [m1; m2] -> tidy (mb_lgr z)) by (intros z [<-|[<-|[]]]; apply proper_tidy; assumption).
        apply (code_points_merged ord_names ord_variants Pv [m1; m2] st T0 M y). destruct T' as [T'|T']; [exists m1|exists m2]; cbn; auto. }
      split.
      + intros x y T. split; [eapply Hk; exact T|]. apply Tg. eapply r_sym; [exact C|]. apply Tg. exact T.
      + intros x y T. split; [eapply Hk; exact T|]. intros z T' N. apply Tg. apply Tg in T. apply Tg in T'. eapply (r_trans _ _ _ C x y z); eauto.
  Qed.

  Theorem fitted_labels : forall l l', (forall m, In m l -> proper (mb_lgr m) /\ texts_once m /\ letters (lg_rep (mb_lgr m)) /\ complete m) -> NoDup (map sort_key l) ->
    unambiguous when_of l -> unambiguous not_when_of l -> Permutation l l' -> in_script_order l' -> fitted l' ->
    forall st q rm, merge_lgr_set ord_names ord_variants l = Ok st -> rebuilt (lg_rep (mg_lgr st)) q ->
    forall a b, in_lgr q a -> in_lgr q b -> exists ia ib, has_index rm q a ia /\ has_index rm q b ib /\
      (ia = ib <-> Forall2 (fun x y => chained (some_gives l) [x] [y]) a b).
  Proof.
    intros l l' Hl Hn U1 U2 Hp So F st q rm E B a b Ha Hb. destruct (fitted_merge ord_names ord_variants Pn Pv l l') as [_ Rs]; auto.
    { intros m Hm. destruct (Hl m Hm) as [A1 [B1 [C D]]]. split; [exact A1|]. split; [exact B1|]. split; [|exact D].
      intros x y v [ch [X1 [X2 X3]]]. destruct (C _ _ X1) as [_ [_ [_ V]]]. destruct (V v X2) as [V1 [V2 _]]. auto. }
    destruct (Rs st E) as [_ [Tr [Re _]]].
    destruct (merged_keeps ord_names ord_variants Pv l st q rm) as [H _]; [|exact E|exact Tr|exact B|].
    { intros m Hm. destruct (Hl m Hm) as [X1 [_ [X3 X4]]]. split; [apply proper_tidy; exact X1|]. split; [exact X3|apply X4]. }
    destruct (H a b Ha Hb) as [ia [ib [I1 [I2 I3]]]]. exists ia, ib. split; [exact I1|]. split; [exact I2|]. rewrite I3. unfold variant_labels.
    assert (Q : forall x y : N, (x = y \/ has_target (lg_rep (mg_lgr st)) [x] [y]) <-> chained (some_gives l) [x] [y]).
    { intros x y. destruct (N.eq_dec x y) as [<-|Nx].
      - split; [intros _; apply chained_refl|auto].
      - assert (Nc : [x] <> [y]) by congruence. rewrite <- (Re _ _ Nc). tauto. }
    apply forall2_iff. exact Q.
  Qed.
End Ord.
