(** LGRs harmonized with a root zone LGR and then merged. *)
From Coq Require Import Permutation.
From Verif Require Import Base BaseFacts CharModel RepSpec RepProofs VariantProofs LgrModel LgrSpec LgrProofs LgrReach LgrInv LgrFinal.
From Verif Require Import ValidateModel ValidateSpec ValidateProofs PopulateModel PopulateSpec SerialSpec SerialFinal.
From Verif Require Import HarmonizeModel HarmonizeSpec HarmonizeProofs HarmonizeFinal HarmonizeCopy HarmToolProofs CombineHarm ActionModel LabelModel LabelSpec CombineSpec CombineFinal.
From Verif Require Import CompareProofs MergeModel MergeProofs MergeSpec MergeFinal MergeContext MergeSucceedSpec HarmMergeSpec HarmMerge.
Open Scope string_scope.
Open Scope list_scope.

Lemma expand_still : forall h, expanded h -> lgr_expand_ranges h = (h, Ok tt).
Proof. intros h [_ [H _]]. unfold lgr_expand_ranges. rewrite H. reflexivity. Qed.
Lemma copy_still : forall g, lg_db g = None -> lgr_copy g = g.
Proof. intros [r d a b c e] H. cbn in H. subst d. reflexivity. Qed.
(** Three harmonizations of two. *)
Theorem root_in_steps : forall order g1 g2 z, rearranges order -> tidy g1 -> tidy g2 -> tidy z ->
  harmonize order g1 g2 (Some z) =
  bind (harmonize order g1 z None) (fun p => bind (harmonize order g2 z None) (fun q => harmonize order (fst (fst p)) (fst (fst q)) None)).
Proof.
  intros order g1 g2 z Po T1 T2 T3.
  assert (S : forall g, tidy g -> exists e, lgr_expand_ranges (lgr_copy g) = (e, Ok tt) /\ expanded e).
  { intros g T. destruct (expanded_ok _ (tidy_copy g T)) as [e [E X]]. exists e. split; [exact E|exact (spelled_expanded _ _ X)]. }
  assert (K : forall g, tidy g -> forall k y rs, harmonize order g z None = Ok (k, y, rs) -> expanded k /\ lg_db k = None).
  { intros g T k y [r1 r2] E. destruct (harmonize_two_ok order (lgr_copy g) (lgr_copy z) k y r1 r2 Po (tidy_copy _ T) (tidy_copy _ T3) E) as [X _]. split; [exact X|].
    destruct (harmonize_no_database order g z None k y (r1, r2) Po T T3) as [D _]; [discriminate|exact E|exact D]. }
  assert (W : forall g, tidy g -> forall e, lgr_expand_ranges (lgr_copy g) = (e, Ok tt) -> expanded e -> harmonize_two order e (lgr_copy z) = harmonize order g z None).
  { intros g T e E X. unfold harmonize, harmonize_copies, harmonize_two, option_map. rewrite (expand_still e X), E. reflexivity. }
  destruct (S g1 T1) as [e1 [E1 X1]]. destruct (S g2 T2) as [e2 [E2 X2]].
  unfold harmonize at 1. unfold harmonize_copies. cbn [option_map]. rewrite E1, E2. cbn [finished bind]. rewrite (W g1 T1 e1 E1 X1), (W g2 T2 e2 E2 X2).
  destruct (harmonize order g1 z None) as [[[k1 y1] r1]|x] eqn:H1; [|reflexivity]. cbn [bind fst].
  destruct (harmonize order g2 z None) as [[[k2 y2] r2]|x] eqn:H2; [|reflexivity]. cbn [bind fst].
  destruct (K g1 T1 _ _ _ H1) as [Y1 D1]. destruct (K g2 T2 _ _ _ H2) as [Y2 D2].
  unfold harmonize, harmonize_copies, option_map. rewrite (copy_still _ D1), (copy_still _ D2), (expand_still _ Y1), (expand_still _ Y2). reflexivity.
Qed.

Lemma chained_trans : forall R a b c, chained R a b -> chained R b c -> chained R a c.
Proof. intros R a b c H. induction H; intro K; [exact K|eapply chained_forth; eauto|eapply chained_back; eauto]. Qed.
Lemma chained_sym : forall R a b, chained R a b -> chained R b a.
Proof.
  intros R a b H. induction H as [x|x y w H C IH|x y w H C IH]; [constructor| |]; (eapply chained_trans; [exact IH|]).
  - eapply chained_back; [exact H|constructor].
  - eapply chained_forth; [exact H|constructor].
Qed.
Lemma chained_flat : forall (R S : cps -> cps -> Prop), (forall x y, R x y -> chained S x y) -> forall a b, chained R a b -> chained S a b.
Proof.
  intros R S H a b C. induction C as [x|x y w K C IH|x y w K C IH]; [constructor| |]; (eapply chained_trans; [|exact IH]); [|apply chained_sym]; apply H; exact K.
Qed.

Section Three.
  Variable order : list cps -> list cps.
  Hypothesis Po : rearranges order.
  Variables m1 m2 z : member.
  Variables h1 h2 : lgr.
  Variable rs : list cps * list cps.
  Hypothesis P1 : proper (mb_lgr m1).
  Hypothesis P2 : proper (mb_lgr m2).
  Hypothesis Pz : proper (mb_lgr z).
  Hypothesis U1 : MergeSpec.unconditional m1.
  Hypothesis U2 : MergeSpec.unconditional m2.
  Hypothesis Uz : MergeSpec.unconditional z.
  Hypothesis E : harmonize order (mb_lgr m1) (mb_lgr m2) (Some (mb_lgr z)) = Ok (h1, h2, rs).

  (** What [m] has become, and what it keeps. *)
  Definition stepped (m : member) (k : lgr) : Prop :=
    proper k /\ MergeSpec.unconditional (with_lgr m k) /\ completed (lg_rep (mb_lgr m)) (lg_rep (mb_lgr z)) (lg_rep k) /\
    lg_refs k = lg_refs (mb_lgr m) /\ (forall c, when_of (with_lgr m k) c = when_of m c /\ not_when_of (with_lgr m k) c = not_when_of m c) /\
    (letters (lg_rep (mb_lgr m)) -> letters (lg_rep (mb_lgr z)) -> letters (lg_rep k)).
  Lemma one_step : forall m k y r, proper (mb_lgr m) -> MergeSpec.unconditional m -> harmonize order (mb_lgr m) (mb_lgr z) None = Ok (k, y, r) -> stepped m k.
  Proof.
    intros m k y r P U H. split; [apply (both_proper order m z k y r P Pz H)|]. split; [apply (both_free order m z k y r P Pz U Uz H)|].
    split; [apply (both_completed order Po m z k y r P Pz H)|]. split; [apply (both_refs order Po m z k y r P Pz H)|].
    split; [intro c; apply (both_rules order Po m z k y r P Pz H)|].
    intros L Lz. destruct (harm_simple order _ _ None k y r Po (proper_tidy _ P) (proper_tidy _ Pz)) as [M1 _]; auto; try discriminate.
  Qed.
  Lemma split_steps : exists k1 k2, stepped m1 k1 /\ stepped m2 k2 /\ harmonize order k1 k2 None = Ok (h1, h2, rs).
  Proof.
    rewrite (root_in_steps order _ _ _ Po (proper_tidy _ P1) (proper_tidy _ P2) (proper_tidy _ Pz)) in E.
    destruct (harmonize order (mb_lgr m1) (mb_lgr z) None) as [[[k1 y1] r1]|x] eqn:H1; [|discriminate]. cbn [bind fst] in E.
    destruct (harmonize order (mb_lgr m2) (mb_lgr z) None) as [[[k2 y2] r2]|x] eqn:H2; [|discriminate]. cbn [bind fst] in E.
    exists k1, k2. split; [exact (one_step m1 k1 y1 r1 P1 U1 H1)|]. split; [exact (one_step m2 k2 y2 r2 P2 U2 H2)|exact E].
  Qed.

  Section Ord.
    Variable ord_names : list string -> list string.
    Variable ord_variants : list variant -> list variant.
    Hypothesis Pn : any_order ord_names.
    Hypothesis Pv : any_order ord_variants.
    Hypothesis O1 : texts_once m1.
    Hypothesis O2 : texts_once m2.
    Hypothesis Sc : get_script m1 <> get_script m2.
    Hypothesis A1 : unambiguous when_of [m1; m2].
    Hypothesis A2 : unambiguous not_when_of [m1; m2].

    Section Steps.
      Variables k1 k2 : lgr.
      Hypothesis S1 : stepped m1 k1.
      Hypothesis S2 : stepped m2 k2.
      Hypothesis H : harmonize order k1 k2 None = Ok (h1, h2, rs).
      Notation n1 := (with_lgr m1 k1).
      Notation n2 := (with_lgr m2 k2).
      Lemma step_back : forall x, In x [n1; n2] -> exists m, In m [m1; m2] /\ get_script x = get_script m /\ forall c, when_of x c = when_of m c /\ not_when_of x c = not_when_of m c.
      Proof. intros x [<-|[<-|[]]]; [exists m1|exists m2]; (split; [cbn; auto|]); (split; [reflexivity|]); [apply S1|apply S2]. Qed.
      Lemma step_forth : forall m, In m [m1; m2] -> exists x, In x [n1; n2] /\ get_script x = get_script m /\ forall c, when_of x c = when_of m c /\ not_when_of x c = not_when_of m c.
      Proof. intros m [<-|[<-|[]]]; [exists n1|exists n2]; (split; [cbn; auto|]); (split; [reflexivity|]); [apply S1|apply S2]. Qed.
      Lemma step_clear : forall f, f = when_of \/ f = not_when_of -> unambiguous f [m1; m2] -> unambiguous f [n1; n2].
      Proof.
        intros f Hf [A B]. split.
        - intros m x c n Hm Hx F. destruct (step_back m Hm) as [m' [K1 [-> _]]]. destruct (step_back x Hx) as [x' [K2 [_ K3]]]. apply (A m' x' c n K1 K2). destruct (K3 c) as [K4 K5]. destruct Hf as [-> | ->]; congruence.
        - intros m x rest R. destruct (perm_two _ _ _ _ _ _ R) as [_ [[-> ->]|[-> ->]]]; [apply (B m1 m2 []); apply Permutation_refl|apply (B m2 m1 []); constructor].
      Qed.
      Lemma step_same : forall f, f = when_of \/ f = not_when_of -> (same_rules f [n1; n2] <-> same_rules f [m1; m2]).
      Proof.
        intros f Hf. split; intros S c x y u1 u2 Hx Hy F1 F2.
        - destruct (step_forth x Hx) as [x' [X1 [_ X2]]]. destruct (step_forth y Hy) as [y' [Y1 [_ Y2]]]. destruct (X2 c) as [X3 X4], (Y2 c) as [Y3 Y4]. apply (S c x' y' u1 u2 X1 Y1); destruct Hf as [-> | ->]; congruence.
        - destruct (step_back x Hx) as [x' [X1 [_ X2]]]. destruct (step_back y Hy) as [y' [Y1 [_ Y2]]]. destruct (X2 c) as [X3 X4], (Y2 c) as [Y3 Y4]. apply (S c x' y' u1 u2 X1 Y1); destruct Hf as [-> | ->]; congruence.
      Qed.
      Lemma step_texts : texts_once n1 /\ texts_once n2.
      Proof.
        destruct S1 as [_ [_ [_ [R1 _]]]], S2 as [_ [_ [_ [R2 _]]]].
        split; intros i j t; unfold text_in; cbn [with_lgr mb_lgr]; [rewrite R1; apply O1|rewrite R2; apply O2].
      Qed.
      Lemma step_complete : complete n1 /\ complete n2.
      Proof. destruct S1 as [_ [_ [K1 _]]], S2 as [_ [_ [K2 _]]]. split; (split; [apply K1|apply K1] || (split; [apply K2|apply K2])). Qed.
      Lemma step_related : forall a b, chained (either n1 n2) a b <-> chained (zoned m1 m2 z) a b.
      Proof.
        destruct S1 as [_ [_ [K1 _]]], S2 as [_ [_ [K2 _]]]. intros a b. split; apply chained_flat; clear a b; intros a b G.
        - destruct (cps_eq_dec a b) as [<-|N]; [constructor|].
          destruct G as [G|G]; [apply (co_related _ _ _ K1 a b N) in G|apply (co_related _ _ _ K2 a b N) in G]; (eapply chained_mono; [|exact G]); intros x y [Y|[[Y1 Y2] Y3]].
          + left. exact Y.
          + right. right. split; [left; exact Y1|exact Y3].
          + right. left. exact Y.
          + right. right. split; [right; exact Y1|exact Y3].
        - destruct (cps_eq_dec a b) as [<-|N]; [constructor|]. eapply chained_forth; [|apply chained_refl].
          assert (C : has_cp z a -> forall m, has_cp m a -> common (lg_rep (mb_lgr m)) (lg_rep (mb_lgr z)) a) by (intros; split; assumption).
          assert (F1 : pooled (lg_rep (mb_lgr m1)) (lg_rep (mb_lgr z)) a b -> either n1 n2 a b).
          { intro Y. left. apply (co_related _ _ _ K1 a b N). eapply chained_forth; [exact Y|apply chained_refl]. }
          assert (F2 : pooled (lg_rep (mb_lgr m2)) (lg_rep (mb_lgr z)) a b -> either n1 n2 a b).
          { intro Y. right. apply (co_related _ _ _ K2 a b N). eapply chained_forth; [exact Y|apply chained_refl]. }
          destruct G as [G|[G|[[X|X] G]]]; [apply F1; left; exact G|apply F2; left; exact G| |]; pose proof (source_has z _ _ G) as Z.
          + apply F1. right. split; [exact (C Z m1 X)|exact G].
          + apply F2. right. split; [exact (C Z m2 X)|exact G].
      Qed.
    End Steps.

    Theorem root_merge : (exists st, merge_lgr_set ord_names ord_variants [with_lgr m1 h1; with_lgr m2 h2] = Ok st) <-> same_rules when_of [m1; m2] /\ same_rules not_when_of [m1; m2].
    Proof.
      destruct split_steps as [k1 [k2 [S1 [S2 H]]]]. destruct (step_complete k1 k2 S1 S2) as [C1 C2]. destruct (step_texts k1 k2 S1 S2) as [T1 T2].
      rewrite <- (step_same k1 k2 S1 S2 when_of (or_introl eq_refl)), <- (step_same k1 k2 S1 S2 not_when_of (or_intror eq_refl)).
      exact (harmonized_merge order Po (with_lgr m1 k1) (with_lgr m2 k2) h1 h2 rs (proj1 S1) (proj1 S2) (proj1 (proj2 S1)) (proj1 (proj2 S2)) C1 C2 H ord_names ord_variants Pn Pv T1 T2 Sc
        (step_clear k1 k2 S1 S2 when_of (or_introl eq_refl) A1) (step_clear k1 k2 S1 S2 not_when_of (or_intror eq_refl) A2)).
    Qed.
    Variable st : merged.
    Hypothesis M : merge_lgr_set ord_names ord_variants [with_lgr m1 h1; with_lgr m2 h2] = Ok st.
    Notation T := (has_target (lg_rep (mg_lgr st))).
    Theorem root_complete : symmetric (lg_rep (mg_lgr st)) /\ transitive (lg_rep (mg_lgr st)).
    Proof.
      destruct split_steps as [k1 [k2 [S1 [S2 H]]]]. destruct (step_complete k1 k2 S1 S2) as [C1 C2]. destruct (step_texts k1 k2 S1 S2) as [T1 T2]. split.
      - exact (harmonized_symmetric order Po (with_lgr m1 k1) (with_lgr m2 k2) h1 h2 rs (proj1 S1) (proj1 S2) (proj1 (proj2 S1)) (proj1 (proj2 S2)) H ord_names ord_variants Pv T1 T2 st M).
      - exact (harmonized_transitive order Po (with_lgr m1 k1) (with_lgr m2 k2) h1 h2 rs (proj1 S1) (proj1 S2) (proj1 (proj2 S1)) (proj1 (proj2 S2)) C1 C2 H ord_names ord_variants Pn Pv T1 T2 Sc
        (step_clear k1 k2 S1 S2 when_of (or_introl eq_refl) A1) (step_clear k1 k2 S1 S2 not_when_of (or_intror eq_refl) A2) st M).
    Qed.
    Theorem root_related : forall a b, a <> b -> (T a b <-> chained (zoned m1 m2 z) a b).
    Proof.
      destruct split_steps as [k1 [k2 [S1 [S2 H]]]]. destruct (step_complete k1 k2 S1 S2) as [C1 C2]. destruct (step_texts k1 k2 S1 S2) as [T1 T2].
      intros a b N. rewrite <- (step_related k1 k2 S1 S2).
      exact (harmonized_related order Po (with_lgr m1 k1) (with_lgr m2 k2) h1 h2 rs (proj1 S1) (proj1 S2) (proj1 (proj2 S1)) (proj1 (proj2 S2)) C1 C2 H ord_names ord_variants Pn Pv T1 T2 Sc
        (step_clear k1 k2 S1 S2 when_of (or_introl eq_refl) A1) (step_clear k1 k2 S1 S2 not_when_of (or_intror eq_refl) A2) st M a b N).
    Qed.
    Theorem root_labels : letters (lg_rep (mb_lgr m1)) -> letters (lg_rep (mb_lgr m2)) -> letters (lg_rep (mb_lgr z)) -> forall q rm, rebuilt (lg_rep (mg_lgr st)) q ->
      forall a b, in_lgr q a -> in_lgr q b -> exists ia ib, has_index rm q a ia /\ has_index rm q b ib /\
        (ia = ib <-> Forall2 (fun x y => chained (zoned m1 m2 z) [x] [y]) a b).
    Proof.
      intros L1 L2 Lz q rm B a b Ha Hb.
      destruct split_steps as [k1 [k2 [S1 [S2 H]]]]. destruct (step_complete k1 k2 S1 S2) as [C1 C2]. destruct (step_texts k1 k2 S1 S2) as [T1 T2].
      pose proof (fun M1 M2 => harmonized_labels order Po (with_lgr m1 k1) (with_lgr m2 k2) h1 h2 rs (proj1 S1) (proj1 S2) (proj1 (proj2 S1)) (proj1 (proj2 S2)) C1 C2 H ord_names ord_variants Pn Pv T1 T2 Sc
        (step_clear k1 k2 S1 S2 when_of (or_introl eq_refl) A1) (step_clear k1 k2 S1 S2 not_when_of (or_intror eq_refl) A2) st M M1 M2 q rm B a b Ha Hb) as X.
      destruct X as [ia [ib [I1 [I2 I3]]]].
      - destruct S1 as [_ [_ [_ [_ [_ J]]]]]. exact (J L1 Lz).
      - destruct S2 as [_ [_ [_ [_ [_ J]]]]]. exact (J L2 Lz).
      - exists ia, ib. split; [exact I1|]. split; [exact I2|]. rewrite I3. apply forall2_iff. intros x y. apply (step_related k1 k2 S1 S2).
    Qed.
  End Ord.
End Three.
Theorem root_exists : forall order m1 m2 z, rearranges order -> proper (mb_lgr m1) -> proper (mb_lgr m2) -> proper (mb_lgr z) -> exists h1 h2 rs, harmonize order (mb_lgr m1) (mb_lgr m2) (Some (mb_lgr z)) = Ok (h1, h2, rs).
Proof.
  intros order m1 m2 z Po P1 P2 Pz. destruct (harmonize_succeeds order (mb_lgr m1) (mb_lgr m2) (Some (mb_lgr z)) Po (proper_tidy _ P1) (proper_tidy _ P2)) as [[[h1 h2] rs] E]; [|apply proper_plain; exact P1|apply proper_plain; exact P2|].
  - intros y Y. injection Y as <-. split; [apply proper_tidy; exact Pz|apply proper_plain; exact Pz].
  - exists h1, h2, rs. exact E.
Qed.
