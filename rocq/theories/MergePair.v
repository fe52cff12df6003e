From Coq Require Import Permutation.
From Verif Require Import Base BaseFacts CharModel RepSpec RepProofs VariantProofs IterProofs VarSetSpec VarSetProofs.
From Verif Require Import RefModel RefSpec RefProofs ActionModel LgrModel LgrSpec LgrProofs LgrReach LgrInv LgrRefs LgrFinal.
From Verif Require Import ValidateModel ValidateSpec ValidateProofs PopulateModel PopulateSpec PopulateProofs.
From Verif Require Import CompareModel CompareProofs HarmonizeModel HarmonizeSpec HarmonizeProofs HarmonizeFinal MergeModel MergeProofs MergeSteps MergeLoop MergeSpec MergeRefs MergeFold MergeFinal MergeContext.
Open Scope string_scope.
Open Scope list_scope.

Section Ord.
  Variable ord_names : list string -> list string.
  Variable ord_variants : list variant -> list variant.
  Hypothesis Pv : any_order ord_variants.
  Notation took := (took ord_names).

  Definition plain_st (st : merged) : Prop := forall a b v, mapping (lg_rep (mg_lgr st)) a b v -> v_when v = None /\ v_not_when v = None.
  Notation T st := (has_target (lg_rep (mg_lgr st))).
  Lemma plain_key : forall (u v : variant), v_when u = None -> v_not_when u = None -> v_when v = None -> v_not_when v = None -> (vkey u = vkey v <-> v_cp u = v_cp v).
  Proof. intros u v A B C D. unfold vkey. rewrite A, B, C, D. split; congruence. Qed.
  Lemma plain_fresh : forall st m a b v, plain_st st -> unconditional m -> mapping (lg_rep (mb_lgr m)) a b v -> (fresh_at (mg_lgr st) a v <-> ~ T st a b).
  Proof.
    intros st m a b v Hs Hm Hv. destruct (Hm a b v Hv) as [A B]. assert (Hb : v_cp v = b) by (destruct Hv as [? [_ [_ X]]]; exact X). unfold fresh_at. split.
    - intros F [u Hu]. destruct (Hs _ _ _ Hu) as [C D]. rewrite <- Hb in Hu. apply (F u Hu). apply plain_key; auto. destruct Hu as [? [_ [_ X]]]. exact X.
    - intros F u Hu Hk. apply F. exists u. rewrite <- Hb. exact Hu.
  Qed.
  Lemma step_plain : forall pr st st' m P, plain_st st -> unconditional m -> took pr st st' m P -> plain_st st'.
  Proof.
    intros pr st st' m P Hs Hm K a b u Hu. apply (tk_map _ _ _ _ _ _ K) in Hu. destruct Hu as [Hu|[[v [V1 [V2 ->]]]|[_ [l1 [l2 [v1 [v2 [_ [_ [_ [[_ ->]|[_ ->]]]]]]]]]]]]; [eauto| |cbn; auto|cbn; auto].
    destruct (Hm a b v V1) as [A B]. cbn. rewrite A, B. auto.
  Qed.
  (** The targets after a member: those before, its own, and the pairs of a new
      and an old target of a code point in both. *)
  Lemma step_targets : forall pr st st' m P, plain_st st -> unconditional m -> took pr st st' m P ->
    (forall a b, T st' a b -> T st a b \/ gives m a b \/ exists c, (gives m c a /\ T st c b) \/ (T st c a /\ gives m c b)) /\
    (forall a b, T st a b \/ gives m a b -> T st' a b) /\
    (forall a b c, gives m c a -> ~ T st c a -> a <> c -> T st c b -> ~ gives m c b -> b <> c -> T st' a b /\ T st' b a).
  Proof.
    intros pr st st' m P Hs Hm K. split; [|split].
    - intros a b [u Hu]. apply (tk_map _ _ _ _ _ _ K) in Hu. destruct Hu as [Hu|[[v [V1 [V2 ->]]]|[Hb J]]].
      + left. exists u. exact Hu.
      + right. left. exists v. exact V1.
      + right. right. destruct J as [l1 [l2 [v1 [v2 [J1 [J2 [J3 J4]]]]]]]. destruct (tk_pairs _ _ _ _ _ _ K _ J1) as [c [_ [_ [C3 [C4 _]]]]]. cbn [fst snd] in *.
        assert (G1 : gives m c (v_cp v1)) by (exists v1; apply C3; exact J2). assert (G2 : T st c (v_cp v2)) by (exists v2; apply C4; exact J3).
        exists c. destruct J4 as [[-> ->]|[-> ->]]; cbn in Hb; subst b; auto.
    - intros a b [[u Hu]|[v Hv]].
      + exists u. apply (tk_map _ _ _ _ _ _ K). auto.
      + destruct (took_new ord_names _ _ _ _ _ _ _ _ K Hv) as [w [W _]]. exists w. exact W.
    - intros a b c [v1 H1] N1 A1 [v2 H2] N2 A2. assert (E1 : v_cp v1 = a) by (destruct H1 as [? [_ [_ X]]]; exact X). assert (E2 : v_cp v2 = b) by (destruct H2 as [? [_ [_ X]]]; exact X).
      destruct (tk_all _ _ _ _ _ _ K c v1 v2) as [[l1 l2] [Q1 [Q2 Q3]]]; cbn [fst snd] in *.
      + rewrite E1. exact H1.
      + eapply plain_fresh; eauto.
      + congruence.
      + rewrite E2. exact H2.
      + intros u Hu Hk. apply N2. exists u. rewrite E2 in Hu. exact Hu.
      + congruence.
      + assert (G : forall x u, joined_one v1 v2 x u -> T st' x (v_cp u)).
        { intros x u Hx. exists u. apply (tk_map _ _ _ _ _ _ K). right. right. split; [reflexivity|]. exists l1, l2, v1, v2. auto. }
        split; [specialize (G (v_cp v1) (joining (v_cp v2)) (or_introl (conj eq_refl eq_refl)))|specialize (G (v_cp v2) (joining (v_cp v1)) (or_intror (conj eq_refl eq_refl)))]; cbn in G; congruence.
  Qed.

  Definition Q_pair (D : list member) (st : merged) : Prop :=
    match D with
    | [] => plain_st st /\ forall a b, ~ T st a b
    | [m] => plain_st st /\ forall a b, T st a b <-> gives m a b
    | [m1; m2] => complete m1 -> complete m2 -> forall a b, a <> b ->
        (T st a b <-> gives m1 a b \/ gives m2 a b \/ exists c, (gives m1 c a /\ gives m2 c b) \/ (gives m2 c a /\ gives m1 c b))
    | _ => True
    end.
  Lemma gives_dec : forall m a b, gives m a b \/ ~ gives m a b. Proof. intros m a b. unfold gives. apply has_target_dec. Qed.
  Lemma complete_sym : forall m a b, complete m -> gives m a b -> gives m b a. Proof. intros m a b [S _] H. apply S. exact H. Qed.
  Lemma complete_trans : forall m a b c, complete m -> gives m a b -> gives m b c -> a <> c -> gives m a c.
  Proof. intros m a b c [_ Tr] H1 H2 N. destruct (Tr a b H1) as [_ X]. apply X; auto. Qed.
  Lemma pair_step : forall D st m st' P, (forall x, In x D -> unconditional x) -> unconditional m -> Q_pair D st -> took (map get_script D) st st' m P -> Q_pair (D ++ [m]) st'.
  Proof.
    intros D st m st' P HD Hm Q K. destruct D as [|m1 [|m2 D]]; cbn [app].
    - destruct Q as [Q1 Q2]. cbn [Q_pair]. split; [eapply step_plain; eauto|]. destruct (step_targets _ _ _ _ _ Q1 Hm K) as [S1 [S2 _]]. intros a b. split; [|intro H; apply S2; auto].
      intro H. destruct (S1 a b H) as [X|[X|[c [[_ X]|[X _]]]]]; [destruct (Q2 _ _ X)|exact X|destruct (Q2 _ _ X)|destruct (Q2 _ _ X)].
    - destruct Q as [Q1 Q2]. cbn [Q_pair]. intros C1 C2. destruct (step_targets _ _ _ _ _ Q1 Hm K) as [S1 [S2 S3]]. intros a b Hab. split.
      + intro H. destruct (S1 a b H) as [X|[X|[c [[X Y]|[X Y]]]]].
        * left. apply Q2. exact X.
        * auto.
        * right. right. exists c. right. split; [exact X|apply Q2; exact Y].
        * right. right. exists c. left. split; [apply Q2; exact X|exact Y].
      + assert (Cross : forall c x y, gives m c x -> gives m1 c y -> x <> y -> T st' x y /\ T st' y x).
        { intros c x y X Y N.
          assert (Own : forall z w, gives m z w \/ gives m1 z w -> T st' z w /\ T st' w z).
          { intros z w [G|G]; split; apply S2; [right; exact G|right; apply complete_sym; assumption|left; apply Q2; exact G|left; apply Q2; apply complete_sym; assumption]. }
          destruct (cps_eq_dec x c) as [->|Nx]; [apply Own; auto|]. destruct (cps_eq_dec y c) as [->|Ny]; [destruct (Own c x) as [A B]; auto|].
          destruct (gives_dec m c y) as [G|G].
          - apply Own. left. apply (complete_trans m x c y); auto. apply complete_sym; auto.
          - destruct (gives_dec m1 c x) as [G'|G'].
            + apply Own. right. apply (complete_trans m1 x c y); auto. apply complete_sym; auto.
            + apply (S3 x y c); auto; [intro Z; apply G'; apply Q2; exact Z|apply Q2; exact Y]. }
        intros [H|[H|[c [[H1 H2]|[H1 H2]]]]].
        * apply S2. left. apply Q2. exact H.
        * apply S2. auto.
        * apply (Cross c b a H2 H1). congruence.
        * apply (Cross c a b H1 H2 Hab).
    - destruct D; exact I.
  Qed.
  Theorem pair_targets : forall m1 m2 st, tidy (mb_lgr m1) -> tidy (mb_lgr m2) -> unconditional m1 -> unconditional m2 -> complete m1 -> complete m2 ->
    merge_lgr_set ord_names ord_variants [m1; m2] = Ok st -> forall a b, a <> b ->
    (T st a b <-> gives m1 a b \/ gives m2 a b \/ exists c, (gives m1 c a /\ gives m2 c b) \/ (gives m2 c a /\ gives m1 c b)).
  Proof.
    intros m1 m2 st T1 T2 U1 U2 C1 C2 E a b Hab.
    assert (H : Q_pair (isort script_leb [m1; m2]) st).
    { refine (proj2 (proj1 (merged_ind ord_names ord_variants Pv (fun D st => (forall x, In x D -> unconditional x) /\ Q_pair D st) [m1; m2] st _ _ _ E))).
      - intros D s m s' P Hm [H1 H2] _ K. assert (Um : unconditional m) by (destruct Hm as [<-|[<-|[]]]; assumption). split; [|eapply pair_step; eauto].
        intros x Hx. apply in_app_iff in Hx. destruct Hx as [Hx|[<-|[]]]; auto.
      - intros m [<-|[<-|[]]]; assumption.
      - split; [intros x []|]. split; [intros x y v Hv; destruct (start_map _ _ _ Hv)|intros x y [v Hv]; destruct (start_map _ _ _ Hv)]. }
    change (isort script_leb [m1; m2]) with (if script_leb m1 m2 then [m1; m2] else [m2; m1]) in H. destruct (script_leb m1 m2).
    - apply H; assumption.
    - rewrite (H C2 C1 a b Hab). split; (intros [X|[X|[c [X|X]]]]; [auto|auto| |]); right; right; exists c; auto.
  Qed.
  Theorem one_shared_complete : forall m1 m2 st s, tidy (mb_lgr m1) -> tidy (mb_lgr m2) -> unconditional m1 -> unconditional m2 -> complete m1 -> complete m2 ->
    (forall c, has_cp m1 c -> has_cp m2 c -> c = s) -> merge_lgr_set ord_names ord_variants [m1; m2] = Ok st ->
    symmetric (lg_rep (mg_lgr st)) /\ transitive (lg_rep (mg_lgr st)).
  Proof.
    intros m1 m2 st s T1 T2 U1 U2 C1 C2 Hs E.
    assert (Tt : forall m, In m [m1; m2] -> tidy (mb_lgr m)) by (intros m [<-|[<-|[]]]; assumption).
    assert (S : symmetric (lg_rep (mg_lgr st))) by (apply (merge_symmetric ord_names ord_variants Pv [m1; m2]); [exact Tt|exact E|intros m [<-|[<-|[]]]; [apply C1|apply C2]]).
    split; [exact S|]. intros a b Hab. destruct (S a b Hab) as [Hb _]. split; [exact Hb|]. intros c Hbc Hac.
    pose proof (pair_targets m1 m2 st T1 T2 U1 U2 C1 C2 E) as R.
    assert (Has : forall m x y, complete m -> gives m x y -> has_cp m x /\ has_cp m y).
    { intros m x y C G. split; [eapply target_source_lk; exact G|]. eapply target_source_lk. apply (complete_sym m x y C G). }
    assert (Two : forall x y z, gives m1 x y -> gives m2 y z -> y = s) by (intros x y z G1 G2; apply Hs; [apply (Has m1 x y C1 G1)|apply (Has m2 y z C2 G2)]).
    destruct (cps_eq_dec a b) as [<-|Nab]; [exact Hbc|]. destruct (cps_eq_dec b c) as [<-|Nbc]; [exact Hab|].
    (* either both in one member, or joined through [s] *)
    assert (R' : forall x y, x <> y -> T st x y -> gives m1 x y \/ gives m2 x y \/ (gives m1 s x /\ gives m2 s y) \/ (gives m2 s x /\ gives m1 s y)).
    { intros x y N G. apply (R x y N) in G. destruct G as [G|[G|[d [[G1 G2]|[G1 G2]]]]]; [auto|auto| |].
      - assert (d = s) by (apply Hs; [apply (Has m1 d x C1 G1)|apply (Has m2 d y C2 G2)]). subst d. auto.
      - assert (d = s) by (apply Hs; [apply (Has m1 d y C1 G2)|apply (Has m2 d x C2 G1)]). subst d. auto. }
    pose proof (complete_sym m1) as S1. pose proof (complete_sym m2) as S2. pose proof (complete_trans m1) as Tr1. pose proof (complete_trans m2) as Tr2.
    assert (Sh : forall x, has_cp m1 x -> has_cp m2 x -> x = s) by exact Hs.
    assert (Hca : a <> c) by congruence. apply (R a c Hca).
    assert (G12 : forall x y, gives m1 x s -> gives m2 s y -> gives m1 x y \/ gives m2 x y \/ exists d, (gives m1 d x /\ gives m2 d y) \/ (gives m2 d x /\ gives m1 d y)).
    { intros x y X Y. right. right. exists s. left. auto. }
    assert (G21 : forall x y, gives m2 x s -> gives m1 s y -> gives m1 x y \/ gives m2 x y \/ exists d, (gives m1 d x /\ gives m2 d y) \/ (gives m2 d x /\ gives m1 d y)).
    { intros x y X Y. right. right. exists s. right. auto. }
    destruct (R' a b Nab Hab) as [X|[X|[[X1 X2]|[X1 X2]]]]; destruct (R' b c Nbc Hbc) as [Y|[Y|[[Y1 Y2]|[Y1 Y2]]]].
    - left. eauto.
    - assert (b = s) by (apply Sh; [apply (Has m1 a b C1 X)|apply (Has m2 b c C2 Y)]). subst b. apply G12; assumption.
    - destruct (cps_eq_dec a s) as [->|Na]; [right; left; exact Y2|]. apply G12; [|exact Y2]. apply (Tr1 a b s); auto.
    - assert (b = s) by (apply Sh; [apply (Has m1 a b C1 X)|apply (Has m2 s b C2 Y1)]). subst b. left. eauto.
    - assert (b = s) by (apply Sh; [apply (Has m1 b c C1 Y)|apply (Has m2 a b C2 X)]). subst b. apply G21; assumption.
    - right. left. eauto.
    - assert (b = s) by (apply Sh; [apply (Has m1 s b C1 Y1)|apply (Has m2 a b C2 X)]). subst b. right. left. eauto.
    - destruct (cps_eq_dec a s) as [->|Na]; [left; exact Y2|]. apply G21; [|exact Y2]. apply (Tr2 a b s); auto.
    - assert (b = s) by (apply Sh; [apply (Has m1 b c C1 Y)|apply (Has m2 s b C2 X2)]). subst b. left. eauto.
    - destruct (cps_eq_dec c s) as [->|Nc]; [left; auto|]. apply G12; [auto|]. apply (Tr2 s b c); auto.
    - assert (b = s) by (apply Sh; [apply (Has m1 s b C1 Y1)|apply (Has m2 s b C2 X2)]). subst b. apply G12; auto.
    - left. apply (Tr1 a s c); auto.
    - destruct (cps_eq_dec c s) as [->|Nc]; [right; left; auto|]. apply G21; [auto|]. apply (Tr1 s b c); auto.
    - assert (b = s) by (apply Sh; [apply (Has m1 s b C1 X2)|apply (Has m2 b c C2 Y)]). subst b. right. left. eauto.
    - right. left. apply (Tr2 a s c); auto.
    - assert (b = s) by (apply Sh; [apply (Has m1 s b C1 X2)|apply (Has m2 s b C2 Y1)]). subst b. apply G21; auto.
  Qed.
End Ord.
