(** The verdict on a label depends on the entries found in it and on their
    mappings to themselves. *)
From Verif Require Import Base BaseFacts CharModel RepSpec RepProofs ValidateSpec ActionModel ActionSpec LabelModel LabelSpec LabelProofs LabelElig LabelFinal VerdictSpec.
Open Scope list_scope.

Lemma triggers_same : forall rm a label ds ds' only, (forall t, In t ds <-> In t ds') -> triggers rm a label ds only -> triggers rm a label ds' only.
Proof.
  intros rm a label ds ds' only H [H1 H2]. split; [exact H1|]. assert (N : ds <> [] -> ds' <> []).
  { intros K E. subst ds'. destruct ds as [|d ds]; [congruence|]. apply (H d). left. reflexivity. }
  unfold variant_condition in *. destruct (a_any a) as [l|]; [|destruct (a_all a) as [l|]; [|destruct (a_only a) as [l|]]].
  - destruct H2 as [d [K1 K2]]. exists d. split; [apply H; exact K1|exact K2].
  - destruct H2 as [K1 K2]. split; [auto|]. intros d Hd. apply K2. apply H. exact Hd.
  - destruct H2 as [K0 [K1 K2]]. split; [exact K0|]. split; [auto|]. intros d Hd. apply K2. apply H. exact Hd.
  - exact I.
Qed.
Lemma decided_same : forall rm acts label ds ds' only a i, (forall t, In t ds <-> In t ds') -> decided_by rm acts label ds only a i -> decided_by rm acts label ds' only a i.
Proof.
  intros rm acts label ds ds' only a i H [H1 [H2 H3]]. split; [exact H1|]. split; [eapply triggers_same; eauto|].
  intros j b J1 J2 J3. apply (H3 j b J1 J2). eapply triggers_same; [|exact J3]. intro t. symmetry. apply H.
Qed.

Section Two.
  Variable rm : rule_oracle.
  Variables r r' : repertoire.
  Variable label : cps.
  Hypothesis S : settled r r'.
  Hypothesis A : avoids r r' label.

  Lemma lookup_cp : forall q c ch, reachable q -> lookup q c = Some ch -> ch_cp ch = c.
  Proof. intros q c ch Hq H. rewrite lookup_lk in H. exact (lk_cp _ _ _ H). Qed.
  Hypothesis R : reachable r.
  Hypothesis R' : reachable r'.
  (** Entries found at a place of the label. *)
  Definition twin (ch ch' : char) : Prop :=
    entry r ch /\ entry r' ch' /\ ch_cp ch' = ch_cp ch /\ ch_when ch' = ch_when ch /\ ch_not_when ch' = ch_not_when ch.
  Lemma twin_over : forall ch, entry r ch -> exists ch', twin ch ch'.
  Proof.
    intros ch H. destruct (S _ _ H) as [ch' [K1 [K2 [K3 _]]]]. pose proof (lookup_cp _ _ _ R' K1) as E. exists ch'. unfold twin, entry. rewrite E. auto.
  Qed.
  Lemma twin_back : forall i ch', entry r' ch' -> occurs_at label i (ch_cp ch') -> exists ch, twin ch ch'.
  Proof.
    intros i ch' H [pre [post [O _]]]. destruct (lookup r (ch_cp ch')) as [ch|] eqn:E.
    - destruct (twin_over ch) as [d K].
      { unfold entry. rewrite (lookup_cp _ _ _ R E). exact E. }
      assert (D : d = ch').
      { destruct K as [_ [K1 [K2 _]]]. unfold entry in K1. rewrite K2, (lookup_cp _ _ _ R E) in K1. unfold entry in H. congruence. }
      subst d. exists ch. exact K.
    - exfalso. apply (A _ E); [unfold entry in H; congruence|]. exists pre, post. exact O.
  Qed.
  Lemma twin_applies : forall i ch ch', twin ch ch' -> (applies rm r label i ch <-> applies rm r' label i ch').
  Proof. intros i ch ch' [K1 [K2 [K3 [K4 K5]]]]. unfold applies. rewrite K3, K4, K5. tauto. Qed.
  Lemma twin_itself : forall ch ch', twin ch ch' -> forall v, v_cp v = ch_cp ch -> (In v (get_variants ch') <-> In v (get_variants ch)).
  Proof.
    intros ch ch' [K1 [K2 [K3 _]]] v E. destruct (S _ _ K1) as [d [D1 [_ [_ D2]]]]. unfold entry in K2. rewrite K3 in K2. assert (d = ch') by congruence. subst d.
    specialize (D2 v). split; intro H.
    - destruct (proj1 D2 (ex_intro _ ch' (conj D1 (conj H E)))) as [x [X1 [X2 _]]]. unfold entry in K1. congruence.
    - destruct (proj2 D2 (ex_intro _ ch (conj K1 (conj H E)))) as [x [X1 [X2 _]]]. congruence.
  Qed.
  Lemma twin_self : forall i ch ch' v, twin ch ch' -> (self_mapping rm label i ch v <-> self_mapping rm label i ch' v).
  Proof.
    intros i ch ch' v K. pose proof (twin_itself ch ch' K v) as T. destruct K as [_ [_ [K _]]]. unfold self_mapping. rewrite K. split; intros [H1 [H2 H3]]; (split; [apply (T H2); exact H1|auto]).
  Qed.
  Lemma twin_rule : forall ch ch' s, twin ch ch' -> (reported_rule ch s <-> reported_rule ch' s).
  Proof. intros ch ch' s [_ [_ [_ [K1 K2]]]]. unfold reported_rule. rewrite K1, K2. tauto. Qed.

  Lemma match_over : forall i l inv, longest_match rm r label i l inv ->
    exists l' inv', longest_match rm r' label i l' inv' /\ map ch_cp l' = map ch_cp l /\ inv' = inv.
  Proof.
    intros i l inv H. induction H as [|i ch l inv H1 H2 _ IH|i x reason l inv H1 H2 H3 _ IH].
    - exists [], []. split; [constructor|auto].
    - destruct IH as [l' [inv' [I1 [I2 I3]]]]. destruct (twin_over ch (proj1 H1)) as [ch' T]. pose proof (proj1 (proj2 (proj2 T))) as E.
      exists (ch' :: l'), inv'. split; [|split; [cbn [map]; rewrite E, I2; reflexivity|exact I3]]. apply lm_take.
      + apply (twin_applies _ _ _ T). exact H1.
      + intros d Hd. destruct (twin_back i d (proj1 Hd) (proj1 (proj2 Hd))) as [c T']. apply (twin_applies _ _ _ T') in Hd. apply H2 in Hd. rewrite E, (proj1 (proj2 (proj2 T'))). exact Hd.
      + rewrite E. exact I1.
    - destruct IH as [l' [inv' [I1 [I2 I3]]]]. exists l', ((x, reason) :: inv'). split; [|split; [exact I2|rewrite I3; reflexivity]]. apply lm_skip; [exact H1| | |exact I1].
      + intros d Hd. destruct (twin_back i d (proj1 Hd) (proj1 (proj2 Hd))) as [c T']. apply (twin_applies _ _ _ T') in Hd. exact (H2 c Hd).
      + destruct reason as [rs|].
        * destruct H3 as [N H3]. split; [exact N|]. intro s. rewrite H3. split.
          -- intros [c [C1 [C2 C3]]]. destruct (twin_over c C1) as [d T]. exists d. split; [apply T|]. split; [rewrite (proj1 (proj2 (proj2 T))); exact C2|apply (twin_rule _ _ _ T); exact C3].
          -- intros [d [D1 [D2 D3]]]. destruct (twin_back i d D1 D2) as [c T]. exists c. split; [apply T|]. split; [rewrite <- (proj1 (proj2 (proj2 T))); exact D2|apply (twin_rule _ _ _ T); exact D3].
        * intros d D1 D2. destruct (twin_back i d D1 D2) as [c T]. apply (H3 c); [apply T|]. rewrite <- (proj1 (proj2 (proj2 T))). exact D2.
  Qed.
  Lemma type_over : forall t, self_type rm r label t <-> self_type rm r' label t.
  Proof.
    intro t. split.
    - intros [i [ch [v [H1 [H2 H3]]]]]. destruct (twin_over ch (proj1 H1)) as [d T]. exists i, d, v. split; [apply (twin_applies _ _ _ T); exact H1|]. split; [apply (twin_self _ _ _ _ T); exact H2|exact H3].
    - intros [i [d [v [H1 [H2 H3]]]]]. destruct (twin_back i d (proj1 H1) (proj1 (proj2 H1))) as [ch T]. exists i, ch, v. split; [apply (twin_applies _ _ _ T); exact H1|]. split; [apply (twin_self _ _ _ _ T); exact H2|exact H3].
  Qed.
  Lemma all_over : all_self_mapped rm r label <-> all_self_mapped rm r' label.
  Proof.
    split; intros H i ch Hc.
    - destruct (twin_back i ch (proj1 Hc) (proj1 (proj2 Hc))) as [c T]. destruct (H i c) as [v K]; [apply (twin_applies _ _ _ T); exact Hc|]. exists v. apply (twin_self _ _ _ _ T). exact K.
    - destruct (twin_over ch (proj1 Hc)) as [d T]. destruct (H i d) as [v K]; [apply (twin_applies _ _ _ T); exact Hc|]. exists v. apply (twin_self _ _ _ _ T). exact K.
  Qed.
End Two.

(** The reasons for which code points are refused are the right ones on both
    sides, but they may be listed in another order. *)
Lemma match_unique : forall rm r label i l inv, longest_match rm r label i l inv -> reachable r -> forall l' inv', longest_match rm r label i l' inv' -> l' = l /\ Forall2 same_reason inv inv'.
Proof.
  intros rm r label i l inv H Hr. induction H as [|i ch l inv H1 H2 H3 IH|i x reason l inv H1 H2 H3 H4 IH]; intros l' inv' G.
  - inversion G as [|? ? ? ? G1|? ? ? ? ? G1]; subst; [split; [reflexivity|constructor]| |].
    + exfalso. destruct G1 as [G1 [[pre [post [O1 O2]]] _]]. apply (f_equal (@length N)) in O1. rewrite !app_length in O1.
      pose proof (entry_nonempty r ch G1) as N. destruct (ch_cp ch); [congruence|cbn in O1; lia].
    + exfalso. apply nth_error_Some in G1 || (assert (K : nth_error label (length label) <> None) by congruence; apply nth_error_Some in K; lia).
  - inversion G as [|? c ? ? G1 G2 G3|? ? ? ? ? G1 G2 G3 G4]; subst.
    + exfalso. destruct H1 as [H1 [[pre [post [O1 O2]]] _]]. apply (f_equal (@length N)) in O1. rewrite !app_length in O1.
      pose proof (entry_nonempty r ch H1) as N. destruct (ch_cp ch); [congruence|cbn in O1; lia].
    + assert (E : c = ch).
      { pose proof (H2 c G1) as L1. pose proof (G2 ch H1) as L2. destruct H1 as [E1 [[p1 [q1 [O1 P1]]] _]], G1 as [E2 [[p2 [q2 [O2 P2]]] _]].
        assert (ch_cp c = ch_cp ch); [|unfold entry in *; congruence].
        assert (p1 = p2 /\ ch_cp ch ++ q1 = ch_cp c ++ q2) as [_ Q].
        { rewrite O1 in O2. clear -O2 P1 P2. revert p2 i P1 P2 O2. induction p1 as [|y p1 IHp]; intros [|z p2] i P1 P2 O2; cbn in *; subst; try discriminate; [auto|].
          injection O2 as -> O2. injection P2 as P2. destruct (IHp p2 (length p1) eq_refl P2 O2) as [-> Q]. auto. }
        assert (L : length (ch_cp ch) = length (ch_cp c)) by lia. clear -Q L. revert Q L. generalize (ch_cp c), (ch_cp ch). intros a b. revert b.
        induction a as [|y a IHa]; intros [|z b] Q L; try discriminate; [reflexivity|]. cbn in *. injection Q as -> Q. injection L as L. f_equal. apply IHa; assumption. }
      subst c. destruct (IH _ _ G3) as [-> K]. auto.
    + exfalso. exact (G2 ch H1).
  - inversion G as [|? c ? ? G1 G2 G3|? y ? ? ? G1 G2 G3 G4]; subst.
    + exfalso. assert (K : nth_error label (length label) <> None) by congruence. apply nth_error_Some in K. lia.
    + exfalso. exact (H2 c G1).
    + destruct (IH _ _ G4) as [-> K]. split; [reflexivity|]. constructor; [|exact K]. rewrite H1 in G1. injection G1 as <-. split; [reflexivity|]. cbn [snd].
      destruct reason as [rs|], reason0 as [rs'|]; cbn [right_reason] in *; auto.
      * destruct H3 as [_ H3], G3 as [_ G3]. intro s. rewrite H3, G3. tauto.
      * destruct H3 as [N H3]. destruct rs as [|s rs]; [congruence|]. destruct (proj1 (H3 s) (or_introl eq_refl)) as [c [C1 [C2 _]]]. exact (G3 c C1 C2).
      * destruct G3 as [N G3]. destruct rs' as [|s rs']; [congruence|]. destruct (proj1 (G3 s) (or_introl eq_refl)) as [c [C1 [C2 _]]]. exact (H3 c C1 C2).
Qed.
Lemma bool_same : forall a b : bool, (a = true <-> b = true) -> a = b.
Proof. intros [] [] H; try reflexivity; destruct H as [H1 H2]; [symmetry; auto|auto]. Qed.

Theorem verdicts : forall r r' label, reachable r -> reachable r' -> settled r r' -> avoids r r' label -> verdict_kept r r' label.
Proof.
  intros r r' label R R' S A rm acts isv. destruct (list_eq_dec N.eq_dec label []) as [E|Hne]; [subst label; cbn; repeat split; constructor|].
  destruct (test_label_eligible_spec rm r acts label isv R Hne) as [e [chars [inv [T1 [T2 [T3 [T4 T5]]]]]]].
  destruct (test_label_eligible_spec rm r' acts label isv R' Hne) as [e' [chars' [inv' [U1 [U2 [U3 [U4 U5]]]]]]].
  rewrite T1, U1. destruct (match_over rm r r' label S A R R' _ _ _ T2) as [l' [i' [M1 [M2 M3]]]]. subst i'.
  destruct (match_unique _ _ _ _ _ _ M1 R' _ _ U2) as [-> F]. rewrite <- T4, <- U4 in F.
  assert (C : map ch_cp (el_chars e') = map ch_cp (el_chars e)) by (rewrite T3, U3; exact M2).
  assert (Sp : spelled l' = spelled chars) by (unfold spelled; rewrite (flat_map_concat_map ch_cp l'), (flat_map_concat_map ch_cp chars); exact (f_equal (@concat N) M2)).
  unfold same_verdict.
  destruct T5 as [[N1 [N2 [N3 [N4 N5]]]]|[N1 [ds [only [a [i [D1 [D2 [D3 [D4 [D5 [D6 D7]]]]]]]]]]]].
  - destruct U5 as [[O1 [O2 [O3 [O4 O5]]]]|[O1 _]].
    + split; [congruence|]. split; [congruence|]. split; [congruence|]. split; [congruence|]. split; [exact C|exact F].
    + exfalso. rewrite T4, U4, O1 in F. inversion F. congruence.
  - destruct U5 as [[O1 _]|[O1 [ds' [only' [a' [i' [E1 [E2 [E3 [E4 [E5 [E6 E7]]]]]]]]]]]].
    + exfalso. rewrite T4, U4, N1 in F. inversion F. congruence.
    + assert (Ds : forall t, In t ds <-> In t ds') by (intro t; rewrite D1, E1, (type_over rm r r' label S A R R'); tauto).
      assert (On : only = only').
      { apply bool_same. rewrite D2, E2, (all_over rm r r' label S A R R'). assert (ds <> [] <-> ds' <> []); [|tauto].
        split; intros K Z; subst; [destruct ds as [|t ds]|destruct ds' as [|t ds']]; try congruence; apply (Ds t); left; reflexivity. }
      subst only'. apply (decided_same _ _ _ _ ds' _ _ _ Ds) in D3. destruct (decided_unique _ _ _ _ _ _ _ _ _ D3 E3) as [<- <-].
      assert (Ok' : el_ok e' = el_ok e) by (apply bool_same; rewrite D6, E6; tauto).
      split; [exact Ok'|]. split; [rewrite D7, E7, Ok'; reflexivity|]. split; [congruence|]. split; [congruence|]. split; [exact C|exact F].
Qed.
