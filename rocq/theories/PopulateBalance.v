(** The loop of populate_lgr ends, and what it leaves. *)
From Verif Require Import Base BaseFacts CharModel RepSpec RepProofs VariantProofs IterProofs VarSetProofs LgrModel LgrSpec LgrProofs
  LgrReach LgrInv LgrRefs Rfc7940Model ValidateModel ValidateSpec ValidateProofs PopulateModel PopulateSpec PopulateProofs PopulateSteps PopulateLoop.
Open Scope string_scope.
Open Scope list_scope.

(** ** What the checks say *)
Lemma passed_symmetry : forall g ign, lgr_reachable g ->
  exists ok, passed (check_symmetry g ign) = Ok ok /\
    (ok = true -> symmetric (lg_rep g)) /\
    (ok = true -> ign = false -> rules_mirrored (lg_rep g)) /\
    (symmetric (lg_rep g) -> (ign = true \/ rules_mirrored (lg_rep g)) -> ok = true).
Proof.
  intros g ign Hre. destruct (check_symmetry_issues g Hre ign) as [rs [ok [is [E [_ _]]]]]. exists ok. unfold passed. rewrite E. cbn [snd bind fst].
  split; [reflexivity|]. destruct ign.
  - pose proof (check_symmetry_decides g Hre) as [H1 H2]. split; [intro; subst ok; apply H1; eauto|]. split; [discriminate|].
    intros Hs _. destruct (H2 Hs) as [rs' [is' E']]. rewrite E in E'. congruence.
  - pose proof (check_symmetry_decides_rules g Hre) as [H1 H2]. split; [intro; subst ok; apply H1; eauto|]. split; [intros; subst ok; apply H1; eauto|].
    intros Hs [H|H]; [discriminate|]. destruct (H2 (conj Hs H)) as [rs' [is' E']]. rewrite E in E'. congruence.
Qed.
Lemma symmetry_failed : forall g, lgr_reachable g -> closed g -> passed (check_symmetry g true) = Ok false ->
  exists a b, has_target (lg_rep g) a b /\ ~ has_target (lg_rep g) b a.
Proof.
  intros g Hre Hc Hf. destruct (check_symmetry_issues g Hre true) as [rs [ok [is [E [H1 [H2 _]]]]]]. unfold passed in Hf. rewrite E in Hf. cbn [snd bind fst] in Hf.
  injection Hf as Hf. subst ok. destruct is as [|[[ch v] p] is0]; [destruct H1 as [_ H1]; discriminate (H1 eq_refl)|].
  destruct (proj1 (H2 ch v p) (or_introl eq_refl)) as [Ha [Hb Hp]].
  assert (Ht : has_target (lg_rep g) (ch_cp ch) (v_cp v)) by (exists v, ch; auto).
  exists (ch_cp ch), (v_cp v). split; [exact Ht|]. inversion Hp; subst; try discriminate; auto.
  exfalso. apply (Hc _ _ Ht). rewrite <- lookup_lk. assumption.
Qed.
Lemma transitivity_failed : forall g, lgr_reachable g -> closed g -> passed (check_transitivity g) = Ok false ->
  exists a b c, has_target (lg_rep g) a b /\ has_target (lg_rep g) b c /\ c <> a /\ ~ has_target (lg_rep g) a c.
Proof.
  intros g Hre Hc Hf. destruct (check_transitivity_spec g Hre) as [rs [ok [is [E [H1 [H2 _]]]]]]. unfold passed in Hf. rewrite E in Hf. cbn [snd bind fst] in Hf.
  injection Hf as Hf. subst ok. destruct is as [|[ch w] is0].
  - exfalso. assert (H : transitive (lg_rep g)); [|apply H1 in H; discriminate].
    intros a b Hab. split; [rewrite lookup_lk; apply (Hc a b Hab)|]. intros c Hbc Hca. destruct (has_target_dec (lg_rep g) a c) as [H|H]; [exact H|exfalso].
    destruct Hab as [v Hv]. pose proof Hv as Hv'. apply mapping_lk in Hv'. destruct Hv' as [ch [L1 _]]. pose proof (lk_cp _ _ _ L1) as Hcp.
    destruct Hbc as [w Hw]. pose proof Hw as Hw'. destruct Hw' as [x [_ [_ Hwc]]]. subst c.
    destruct (H2 ch w) as [_ H2']. cut (In (ch, w) []); [intros []|]. apply H2'. rewrite Hcp. split; [rewrite lookup_lk; exact L1|].
    exists b. split; [exists v; exact Hv|]. auto.
  - destruct (proj1 (H2 ch w) (or_introl eq_refl)) as [_ [b [Hab [Hbc [Hne Hno]]]]]. exists (ch_cp ch), b, (v_cp w). split; [exact Hab|]. split; [exists w; exact Hbc|]. auto.
Qed.
Lemma passed_transitivity : forall g, lgr_reachable g -> exists ok, passed (check_transitivity g) = Ok ok /\ (ok = true <-> transitive (lg_rep g)).
Proof.
  intros g Hre. destruct (check_transitivity_spec g Hre) as [rs [ok [is [E [H1 _]]]]]. exists ok. unfold passed. rewrite E. auto.
Qed.

Lemma balanced_cases : forall g, lgr_reachable g -> closed g ->
  (balanced g = Ok true /\ symmetric (lg_rep g) /\ transitive (lg_rep g)) \/
  (balanced g = Ok false /\ ((exists a b, has_target (lg_rep g) a b /\ ~ has_target (lg_rep g) b a) \/
     exists a b c, has_target (lg_rep g) a b /\ has_target (lg_rep g) b c /\ c <> a /\ ~ has_target (lg_rep g) a c)).
Proof.
  intros g Hre Hc. unfold balanced. destruct (passed_symmetry g true Hre) as [ok [E [H1 _]]]. rewrite E. cbn [bind]. destruct ok.
  - destruct (passed_transitivity g Hre) as [ok [E' H2]]. rewrite E'. destruct ok; [left|right].
    + split; [reflexivity|]. split; [apply H1; reflexivity|apply H2; reflexivity].
    + split; [reflexivity|]. right. apply transitivity_failed; auto.
  - right. split; [reflexivity|]. left. apply symmetry_failed; auto.
Qed.
Lemma balanced_iff : forall g, lgr_reachable g -> symmetric (lg_rep g) -> transitive (lg_rep g) -> balanced g = Ok true.
Proof.
  intros g Hre Hs Ht. unfold balanced. destruct (passed_symmetry g true Hre) as [ok [E [_ [_ H]]]]. rewrite E. rewrite (H Hs (or_introl eq_refl)). cbn [bind].
  destruct (passed_transitivity g Hre) as [ok' [E' H2]]. rewrite E'. rewrite (proj2 H2 Ht). reflexivity.
Qed.

(** ** The measure: the pairs of entries not yet mapped *)
Definition targetb (g : lgr) (p : cps * cps) : bool :=
  match lk (lg_rep g) (fst p) with Some ch => memb cps_eqb (snd p) (map v_cp (get_variants ch)) | None => false end.
Lemma targetb_iff : forall g a b, targetb g (a, b) = true <-> has_target (lg_rep g) a b.
Proof.
  intros g a b. unfold targetb. cbn [fst snd]. split.
  - destruct (lk (lg_rep g) a) as [ch|] eqn:E; [|discriminate]. intro M. apply (memb_In _ _ cps_eqb_eq), in_map_iff in M. destruct M as [v [H1 H2]].
    exists v. apply mapping_lk. eauto.
  - intros [v Hv]. apply mapping_lk in Hv. destruct Hv as [ch [H1 [H2 H3]]]. rewrite H1. apply (memb_In _ _ cps_eqb_eq), in_map_iff. eauto.
Qed.
Definition gaps (V : list cps) (g : lgr) : nat := length (filter (fun p => negb (targetb g p)) (list_prod V V)).
Lemma gaps_le : forall V g g', (forall a b, has_target (lg_rep g) a b -> has_target (lg_rep g') a b) -> (gaps V g' <= gaps V g)%nat.
Proof.
  intros V g g' H. apply filter_length_le. intros [a b] _ Hn. apply negb_true_iff in Hn. apply negb_true_iff.
  destruct (targetb g (a, b)) eqn:E; [|reflexivity]. apply targetb_iff, H, targetb_iff in E. congruence.
Qed.
Lemma gaps_lt : forall V g g' a b, (forall a b, has_target (lg_rep g) a b -> has_target (lg_rep g') a b) ->
  In a V -> In b V -> ~ has_target (lg_rep g) a b -> has_target (lg_rep g') a b -> (gaps V g' < gaps V g)%nat.
Proof.
  intros V g g' a b H Ha Hb Hno Hyes. apply (filter_length_lt _ _ _ _ (a, b)).
  - intros [x y] _ Hn. apply negb_true_iff in Hn. apply negb_true_iff.
    destruct (targetb g (x, y)) eqn:E; [|reflexivity]. apply targetb_iff, H, targetb_iff in E. congruence.
  - apply in_prod; assumption.
  - apply negb_false_iff. apply targetb_iff. exact Hyes.
  - apply negb_true_iff. destruct (targetb g (a, b)) eqn:E; [|reflexivity]. apply targetb_iff in E. contradiction.
Qed.
Lemma gaps_total : forall V g, (gaps V g <= length V * length V)%nat.
Proof. intros V g. unfold gaps. rewrite <- prod_length. apply filter_len_le. Qed.

Definition covers (V : list cps) (g0 : lgr) : Prop := forall a, mentioned (lg_rep g0) a -> In a V.
Lemma covered : forall g0 g V a, inv g0 g -> covers V g0 -> lk (lg_rep g) a <> None -> In a V.
Proof.
  intros g0 g V a HI HV Ha. apply HV. destruct (lk (lg_rep g0) a) as [c|] eqn:E; [left; rewrite lookup_lk; congruence|].
  destruct (lk (lg_rep g) a) as [c|] eqn:E'; [|congruence]. apply (i_new _ _ HI a c E' E).
Qed.

Definition stable (g0 g : lgr) : Prop := inv g0 g /\ closed g.
Lemma outcome_then : forall g0 I g x f (Q Q' : lgr -> Prop), outcome g0 I g x Q ->
  (forall g1, I g1 -> kept g0 g g1 -> Q g1 -> outcome g0 I g1 (f g1) Q') -> outcome g0 I g (andthen x f) Q'.
Proof.
  intros g0 I g [g1 o] f Q Q' [H1 [H2 H3]] Hf. cbn [fst snd] in *. unfold andthen. destruct o as [u|e].
  - destruct H3 as [H3 [H4 H5]]. eapply outcome_seq; [exact H4|]. apply Hf; auto.
  - split; [exact H1|]. split; [exact H2|exact H3].
Qed.

Lemma balance_spec : forall g0 V, covers V g0 -> forall fuel g, stable g0 g -> (gaps V g <= fuel)%nat ->
  outcome g0 (stable g0) g (balance fuel g) (fun g' => symmetric (lg_rep g') /\ transitive (lg_rep g')).
Proof.
  intros g0 V HV. induction fuel as [|fuel IH]; intros g Hst Hfuel; pose proof Hst as [HI Hc].
  - destruct (balanced_cases g (i_re _ _ HI) Hc) as [[Hb [H1 H2]]|[Hb Hex]]; cbn [balance]; rewrite Hb.
    + apply outcome_here; [intros x Hx; apply Hx|exact Hst|auto].
    + exfalso. assert (Hin : forall a b, has_target (lg_rep g) a b -> In a V /\ In b V).
      { intros a b Hab. split; [|apply (covered g0 g V b HI HV (Hc a b Hab))]. destruct (source_lk _ _ _ Hab) as [ch Ha].
        apply (covered g0 g V a HI HV). congruence. }
      assert (Hz : exists a b, In a V /\ In b V /\ ~ has_target (lg_rep g) a b).
      { destruct Hex as [[a [b [H1 H2]]]|[a [b [c [H1 [H2 [_ H3]]]]]]].
        - exists b, a. destruct (Hin _ _ H1). auto.
        - exists a, c. destruct (Hin _ _ H1). destruct (Hin _ _ H2). auto. }
      destruct Hz as [a [b [Ha [Hb' Hno]]]].
      assert (Hl : In (a, b) (filter (fun p => negb (targetb g p)) (list_prod V V))).
      { apply filter_In. split; [apply in_prod; assumption|]. apply negb_true_iff. destruct (targetb g (a, b)) eqn:E; [|reflexivity]. apply targetb_iff in E. contradiction. }
      unfold gaps in Hfuel. destruct (filter (fun p => negb (targetb g p)) (list_prod V V)); [contradiction Hl|cbn [length] in Hfuel; lia].
  - destruct (balanced_cases g (i_re _ _ HI) Hc) as [[Hb [H1 H2]]|[Hb Hex]]; cbn [balance]; rewrite Hb.
    + apply outcome_here; [intros x Hx; apply Hx|exact Hst|auto].
    + assert (Hin : forall a b, has_target (lg_rep g) a b -> In a V /\ In b V).
      { intros a b Hab. split; [|apply (covered g0 g V b HI HV (Hc a b Hab))]. destruct (source_lk _ _ _ Hab) as [ch Ha].
        apply (covered g0 g V a HI HV). congruence. }
      eapply outcome_then; [apply add_symmetry_spec; assumption|]. intros g1 [HI1 Hc1] Hk1 [Hs1 _].
      eapply outcome_then; [apply add_transitivity_spec; assumption|]. intros g2 [HI2 Hc2] Hk2 Hs2.
      apply IH; [split; assumption|]. assert (Hlt : (gaps V g2 < gaps V g)%nat); [|lia].
      destruct Hex as [[a [b [H1 H2]]]|[a [b [c [H1 [H2 [H3 H4]]]]]]].
      * eapply Nat.le_lt_trans; [apply (gaps_le V g1 g2); intros x y; apply (kept_target _ _ _ _ _ Hk2)|].
        destruct (Hin _ _ H1). apply (gaps_lt V g g1 b a); auto. intros x y. apply (kept_target _ _ _ _ _ Hk1).
      * destruct (Hin _ _ H1). destruct (Hin _ _ H2). apply (gaps_lt V g g2 a c); auto.
        -- intros x y Hxy. apply (kept_target _ _ _ _ _ Hk2), (kept_target _ _ _ _ _ Hk1), Hxy.
        -- eapply Hs2; [apply (kept_target _ _ _ _ _ Hk1); exact H1|apply (kept_target _ _ _ _ _ Hk1); exact H2|exact H3].
Qed.

(** ** The whole function *)
Lemma symmetric_transfer : forall g g', symmetric (lg_rep g) -> closed g' -> (forall a b, has_target (lg_rep g') a b <-> has_target (lg_rep g) a b) -> symmetric (lg_rep g').
Proof.
  intros g g' Hs Hc H a b Hab. split; [rewrite lookup_lk; apply (Hc a b Hab)|]. apply H. apply Hs. apply H. exact Hab.
Qed.
Lemma transitive_transfer : forall g g', transitive (lg_rep g) -> closed g' -> (forall a b, has_target (lg_rep g') a b <-> has_target (lg_rep g) a b) -> transitive (lg_rep g').
Proof.
  intros g g' Hs Hc H a b Hab. split; [rewrite lookup_lk; apply (Hc a b Hab)|]. intros c Hbc Hca. apply H.
  apply H in Hab. apply H in Hbc. apply (proj2 (Hs a b Hab) c Hbc Hca).
Qed.

Theorem populate_outcome : forall g, lgr_reachable g ->
  outcome g (stable g) g (populate g) (fun g' => symmetric (lg_rep g') /\ transitive (lg_rep g')).
Proof.
  intros g Hre. unfold populate. destruct (phase1_spec g Hre) as [g1 [[E [HI [Hc Hk]]]|[e [E [HI [He Hbad]]]]]]; rewrite E; cbn [andthen].
  2:{ split; [exact HI|]. split; [apply (i_keep _ _ HI)|]. cbn [snd]. auto. }
  eapply outcome_seq; [exact Hk|].
  set (V := map ch_cp (all_chars (lg_rep g1))).
  assert (HV : covers V g).
  { intros a Ha. cut (lk (lg_rep g1) a <> None).
    - destruct (lk (lg_rep g1) a) as [ch|] eqn:El; [|congruence]. intros _. apply in_map_iff. exists ch. split; [apply (lk_cp _ _ _ El)|]. eapply lk_in_all; [apply lgr_reachable_wf, (i_re _ _ HI)|exact El].
    - destruct Ha as [Ha|[x Hx]].
      + rewrite lookup_lk in Ha. eapply keeps_lk; [apply (i_keep _ _ HI)|exact Ha].
      + apply (Hc x). eapply kept_target; eauto. }
  eapply outcome_then; [apply (balance_spec g V HV)|].
  - split; assumption.
  - rewrite rep_len_all. replace (length (all_chars (lg_rep g1))) with (length V) by (apply map_length). apply gaps_total.
  - intros g2 [HI2 Hc2] Hk2 [Hs Ht]. destruct (passed_symmetry g2 false (i_re _ _ HI2)) as [ok [Ep _]]. rewrite Ep. destruct ok.
    + apply outcome_here; [intros x Hx; apply Hx|split; assumption|auto].
    + eapply outcome_weak; [|apply add_symmetry_spec; assumption]. intros g3 [HI3 Hc3] Hk3 [_ Hb]. cbn beta.
      assert (Hsame : forall a b, has_target (lg_rep g3) a b <-> has_target (lg_rep g2) a b).
      { intros a b. split; [|apply (kept_target _ _ _ _ _ Hk3)]. intro H. destruct (Hb a b H) as [H'|H']; [exact H'|apply (Hs _ _ H')]. }
      split; [eapply symmetric_transfer; eauto|eapply transitive_transfer; eauto].
Qed.

(** Symmetric and transitive relations relate everything linked. *)
Lemma linked_closed : forall r r', symmetric r' -> transitive r' -> (forall a b, has_target r a b -> has_target r' a b) ->
  forall a b, linked r a b -> a = b \/ has_target r' a b.
Proof.
  intros r r' Hs Ht Hsub a b H. induction H as [a|a b c Hab Hbc IH|a b c Hba Hbc IH]; [auto| |].
  - destruct IH as [IH|IH]; [subst c; right; auto|]. destruct (cps_eq_dec c a) as [E|E]; [left; auto|right]. apply (proj2 (Ht a b (Hsub _ _ Hab)) c IH E).
  - pose proof (proj2 (Hs b a (Hsub _ _ Hba))) as Hab. destruct IH as [IH|IH]; [subst c; right; auto|].
    destruct (cps_eq_dec c a) as [E|E]; [left; auto|right]. apply (proj2 (Ht a b Hab) c IH E).
Qed.
