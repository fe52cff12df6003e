From Coq Require Import Permutation.
From Verif Require Import Base BaseFacts CharModel RepSpec RepProofs VariantProofs IterProofs VarSetSpec VarSetProofs.
From Verif Require Import RefModel LgrModel LgrSpec LgrProofs LgrReach LgrInv LgrRefs Rfc7940Model.
From Verif Require Import ValidateModel ValidateSpec ValidateProofs PopulateModel PopulateSpec PopulateProofs PopulateSteps PopulateFinal.
From Verif Require Import CompareModel CompareProofs HarmonizeModel HarmonizeSpec.
Open Scope string_scope.
Open Scope list_scope.

Definition expanded (g : lgr) : Prop :=
  lgr_reachable g /\ rep_ranges (lg_rep g) = [] /\ forall c ch, lk (lg_rep g) c = Some ch -> is_range ch = false.

Lemma add_outside_cp : forall g b, lgr_reachable g -> check_convert g b = Ok b -> lk (lg_rep g) b = None ->
  exists g', lgr_add_cp g b (Some "Out-of-repertoire") [] [] None None None false false = (g', Ok tt) /\ lgr_reachable g' /\ same_rest g g' /\
    forall x, lk (lg_rep g') x = if cps_eqb x b then Some (outside b) else lk (lg_rep g) x.
Proof.
  intros g b Hre Hc Hl. pose proof (check_convert_id g b b Hc) as [_ Hne].
  pose proof (lgr_reachable_step g (LAddCp b (Some "Out-of-repertoire") [] [] None None None false false) Hre) as Hre'. unfold lgr_step in Hre'.
  unfold lgr_add_cp in *. rewrite Hc in *. cbn [negb andb is_some check_validating collect_refs] in *.
  assert (Hd : has_dup [] = false) by reflexivity. rewrite !Hd in *. cbn [andb] in *.
  assert (Hz : (Nat.ltb 1 (length b) && Nat.ltb 0 (length (@nil string)) && true)%bool = false) by (rewrite andb_false_r; reflexivity).
  rewrite Hz in *. rewrite rep_add_char_lk in * by exact Hne. rewrite Hl in *.
  eexists. split; [reflexivity|]. cbn [fst] in Hre'. split; [exact Hre'|]. split.
  - unfold same_rest, add_cp_to_tag_classes, set_tags, set_rep, ins. cbn. destruct b; [congruence|]. auto.
  - intro x. cbn [add_cp_to_tag_classes set_tags set_rep lg_rep]. rewrite lk_ins; [reflexivity|exact Hne|exact Hl].
Qed.

(** What [g'] has more than [g]: mappings [New] and the code points [Out]. *)
Record more (g g' : lgr) (New : cps -> cps -> variant -> Prop) (Out : cps -> Prop) : Prop := mkMore {
  m_exp : expanded g';
  m_rest : same_rest g g';
  m_old : forall a ch, lk (lg_rep g) a = Some ch -> exists ch', lk (lg_rep g') a = Some ch' /\ same_entry ch ch';
  m_new : forall a, lk (lg_rep g) a = None -> (lk (lg_rep g') a <> None <-> Out a) /\ forall ch', lk (lg_rep g') a = Some ch' -> same_entry (outside a) ch';
  m_map : forall a b w, mapping (lg_rep g') a b w <-> mapping (lg_rep g) a b w \/ New a b w
}.
Definition New1 (g : lgr) (c v a b : cps) (w : variant) : Prop :=
  (v <> c /\ a = c /\ b = v /\ w = blocked_variant v) \/ (lk (lg_rep g) v = None /\ a = v /\ b = v /\ w = outside_variant v).

Lemma more_refl : forall g, expanded g -> more g g (fun _ _ _ => False) (fun _ => False).
Proof.
  intros g H. constructor; auto.
  - apply same_rest_refl.
  - intros a ch Hc. exists ch. split; [exact Hc|apply same_entry_refl].
  - intros a Ha. split; [rewrite Ha; tauto|]. intros ch' Hc. congruence.
  - tauto.
Qed.
Lemma more_iff : forall g g' N O N' O', more g g' N O -> (forall a b w, N a b w <-> N' a b w) -> (forall a, lk (lg_rep g) a = None -> (O a <-> O' a)) -> more g g' N' O'.
Proof.
  intros g g' N O N' O' [M1 M2 M3 M4 M5] HN HO. constructor; auto.
  - intros a Ha. destruct (M4 a Ha) as [H1 H2]. split; [rewrite H1; apply HO; exact Ha|exact H2].
  - intros a b w. rewrite M5, HN. tauto.
Qed.
Lemma more_trans : forall g g1 g2 N1 O1 N2 O2, more g g1 N1 O1 -> more g1 g2 N2 O2 ->
  more g g2 (fun a b w => N1 a b w \/ N2 a b w) (fun a => O1 a \/ (O2 a /\ ~ O1 a)).
Proof.
  intros g g1 g2 N1 O1 N2 O2 [A1 A2 A3 A4 A5] [B1 B2 B3 B4 B5]. constructor; auto.
  - eapply same_rest_trans; eauto.
  - intros a ch H. destruct (A3 a ch H) as [c1 [H1 H2]]. destruct (B3 a c1 H1) as [c2 [H3 H4]]. exists c2. split; [exact H3|eapply same_entry_trans; eauto].
  - intros a Ha. destruct (A4 a Ha) as [H1 H2]. destruct (lk (lg_rep g1) a) as [c1|] eqn:E.
    + destruct (B3 a c1 E) as [c2 [H3 H4]]. split.
      * rewrite H3. split; [intros _; left; apply H1; discriminate|discriminate].
      * intros ch' Hc. rewrite H3 in Hc. injection Hc as Hc. subst ch'. eapply same_entry_trans; [apply H2; reflexivity|exact H4].
    + destruct (B4 a E) as [H3 H4]. split; [|exact H4]. rewrite H3. assert (~ O1 a) by (intro X; apply H1 in X; congruence). tauto.
  - intros a b w. rewrite B5, A5. tauto.
Qed.

(** One variant put on an existing entry. *)
Lemma put_more : forall g c ch v ty cm g', expanded g -> lk (lg_rep g) c = Some ch -> check_convert g v = Ok v ->
  put_variant g c v ty None None cm [] = (g', Ok tt) ->
  more g g' (fun a b w => a = c /\ b = v /\ w = mkVariant v ty None None cm []) (fun _ => False).
Proof.
  intros g c ch v ty cm g' [Hre [Hrr Hnr]] Hc Hv E. pose proof (put_variant_spec g c ch v ty None None cm [] Hre Hc Hv) as H. rewrite E in H.
  destruct H as [Hre' [[_ [_ [ch' [Hu [Hs Hi]]]]]|[e [He _]]]]; [|discriminate].
  assert (Hlk : forall a, lk (lg_rep g) a = None <-> lk (lg_rep g') a = None).
  { intro a. destruct (cps_eq_dec a c) as [Ea|Ea]; [subst a; rewrite (updated_lk_c _ _ _ _ Hu); split; congruence|rewrite (updated_lk_other _ _ _ _ _ Hu Ea); tauto]. }
  constructor.
  - split; [exact Hre'|]. split; [destruct Hu as [[_ [_ [_ [_ R]]]] _]; congruence|]. intros a x Hx. destruct (cps_eq_dec a c) as [Ea|Ea].
    + subst a. rewrite (updated_lk_c _ _ _ _ Hu) in Hx. injection Hx as Hx. subst x. rewrite (same_entry_range _ _ Hs). apply (Hnr c ch Hc).
    + rewrite (updated_lk_other _ _ _ _ _ Hu Ea) in Hx. apply (Hnr a x Hx).
  - apply Hu.
  - apply (updated_keeps _ _ _ _ _ Hc Hu Hs).
  - intros a Ha. pose proof (proj1 (Hlk a) Ha) as Ha'. split; [tauto|]. intros x Hx. congruence.
  - intros a b w. rewrite (updated_mapping _ _ _ _ a b w Hu), (mapping_lk (lg_rep g)). split.
    + intros [[Ea [H1 H2]]|[Ea H]]; [|left; exact H]. subst a. apply Hi in H1. destruct H1 as [H1|H1]; [right; subst; auto|left; exists ch; auto].
    + intros [[x [H1 [H2 H3]]]|[Ea [Eb Ew]]].
      * destruct (cps_eq_dec a c) as [Ea|Ea]; [left|right; split; [exact Ea|exists x; auto]]. subst a. rewrite Hc in H1. injection H1 as H1. subst x.
        split; [reflexivity|]. split; [apply Hi; right; exact H2|exact H3].
      * left. subst. split; [reflexivity|]. split; [apply Hi; left; reflexivity|reflexivity].
Qed.
Lemma add_outside_more : forall g v g', expanded g -> check_convert g v = Ok v -> lk (lg_rep g) v = None -> add_outside g v = (g', Ok tt) ->
  more g g' (fun a b w => a = v /\ b = v /\ w = outside_variant v) (fun a => a = v).
Proof.
  intros g v g' [Hre [Hrr Hnr]] Hv Hl E. unfold add_outside in E. destruct (add_outside_cp g v Hre Hv Hl) as [g1 [E1 [Hre1 [Hs Hx]]]]. rewrite E1 in E. cbn [andthen] in E.
  assert (Hadd : more g g1 (fun _ _ _ => False) (fun a => a = v)).
  { constructor.
    - split; [exact Hre1|]. split; [destruct Hs as [_ [_ [_ [_ R]]]]; congruence|]. intros a x Ha. rewrite Hx in Ha. destruct (cps_eqb a v); [|apply (Hnr a x Ha)].
      injection Ha as Ha. subst x. unfold outside, is_range, kind_of. cbn. destruct v as [|? [|? ?]]; reflexivity.
    - exact Hs.
    - intros a x Ha. exists x. split; [|apply same_entry_refl]. rewrite Hx. destruct (cps_eqb a v) eqn:Ev; [|exact Ha]. apply cps_eqb_eq in Ev. congruence.
    - intros a Ha. rewrite Hx. destruct (cps_eqb a v) eqn:Ev.
      + apply cps_eqb_eq in Ev. split; [split; [auto|discriminate]|]. intros x Hc. injection Hc as Hc. subst. apply same_entry_refl.
      + apply cps_eqb_neq in Ev. split; [rewrite Ha; tauto|]. intros x Hc. congruence.
    - intros a b w. rewrite !mapping_lk. split.
      + intros [x [H1 [H2 H3]]]. left. exists x. rewrite Hx in H1. destruct (cps_eqb a v); [|auto]. injection H1 as H1. subst x. destruct H2.
      + intros [[x [H1 [H2 H3]]]|[]]. exists x. split; [|auto]. rewrite Hx. destruct (cps_eqb a v) eqn:Ev; [|exact H1]. apply cps_eqb_eq in Ev. congruence. }
  assert (Hlv : lk (lg_rep g1) v = Some (outside v)) by (rewrite Hx, cps_eqb_refl; reflexivity).
  assert (Hcv : check_convert g1 v = Ok v) by (apply entry_accepted; [exact Hre1|congruence]).
  pose proof (put_more g1 v _ v _ _ g' (m_exp _ _ _ _ Hadd) Hlv Hcv E) as Hput.
  eapply more_iff; [exact (more_trans _ _ _ _ _ _ _ Hadd Hput)| |]; intros; cbn; tauto.
Qed.
Lemma carry_more : forall g c v g', expanded g -> lk (lg_rep g) c <> None -> v <> [] -> carry g c v = (g', Ok tt) ->
  more g g' (New1 g c v) (fun a => a = v).
Proof.
  intros g c v g' He Hc Hne E. unfold carry in E. rewrite rep_contains_lk in E by exact Hne. destruct (lk (lg_rep g) v) as [cv|] eqn:Ev.
  - destruct (cps_eqb v c) eqn:Evc.
    + apply cps_eqb_eq in Evc. injection E as E. subst g' v. eapply more_iff; [apply more_refl; exact He| |].
      * intros a b w. unfold New1. rewrite Ev. split; [tauto|]. intros [[H _]|[H _]]; congruence.
      * intros a Ha. cbn. split; [tauto|]. intro; subst. congruence.
    + apply cps_eqb_neq in Evc. destruct (lk (lg_rep g) c) as [ch|] eqn:Ec; [|congruence].
      assert (Hcv : check_convert g v = Ok v) by (apply entry_accepted; [apply He|congruence]).
      eapply more_iff; [exact (put_more g c ch v _ _ g' He Ec Hcv E)| |].
      * intros a b w. unfold New1, blocked_variant, blocked. rewrite Ev. split; [intros [H1 [H2 H3]]; left; auto|]. intros [[_ H]|[H _]]; [exact H|congruence].
      * intros a Ha. cbn. split; [tauto|]. intro; subst. congruence.
  - destruct (add_outside g v) as [g1 [u|e]] eqn:E1; [|discriminate]. destruct u. cbn [andthen] in E.
    assert (Hcv : check_convert g v = Ok v).
    { destruct (check_convert_cases g v) as [[e [He1 _]]|[H _]]; [|exact H]. unfold add_outside, lgr_add_cp in E1. rewrite He1 in E1. discriminate. }
    pose proof (add_outside_more g v g1 He Hcv Ev E1) as M1.
    assert (Hvc : v <> c) by (intro; subst; congruence).
    destruct (lk (lg_rep g) c) as [ch|] eqn:Ec; [|congruence]. destruct (m_old _ _ _ _ M1 c ch Ec) as [ch1 [Hc1 _]].
    assert (Hcv1 : check_convert g1 v = Ok v).
    { apply entry_accepted; [apply (m_exp _ _ _ _ M1)|]. apply (m_new _ _ _ _ M1 v Ev). reflexivity. }
    pose proof (put_more g1 c ch1 v _ _ g' (m_exp _ _ _ _ M1) Hc1 Hcv1 E) as M2.
    eapply more_iff; [exact (more_trans _ _ _ _ _ _ _ M1 M2)| |].
    + intros a b w. cbn. unfold New1, blocked_variant, blocked. tauto.
    + intros a Ha. cbn. tauto.
Qed.

Definition NewL (g : lgr) (c : cps) (vs : list cps) (a b : cps) (w : variant) : Prop := exists v, In v vs /\ New1 g c v a b w.
Lemma carry_all_more : forall c vs g g', expanded g -> lk (lg_rep g) c <> None -> NoDup vs -> (forall v, In v vs -> v <> []) -> carry_all g c vs = (g', Ok tt) ->
  more g g' (NewL g c vs) (fun a => In a vs).
Proof.
  intros c. induction vs as [|v vs IH]; intros g g' He Hc Hn Hne E; cbn [carry_all] in E.
  - injection E as E. subst. eapply more_iff; [apply more_refl; exact He| |]; intros; cbn; [|tauto]. unfold NewL. split; [tauto|]. intros [x [[] _]].
  - destruct (carry g c v) as [g1 [[]|e]] eqn:E1; [|discriminate]. cbn [andthen] in E. inversion Hn as [|? ? N1 N2]; subst.
    pose proof (carry_more g c v g1 He Hc (Hne v (or_introl eq_refl)) E1) as M1.
    assert (Hc1 : lk (lg_rep g1) c <> None) by (destruct (lk (lg_rep g) c) as [ch|] eqn:Ec; [destruct (m_old _ _ _ _ M1 c ch Ec) as [x [Hx _]]; congruence|congruence]).
    pose proof (IH g1 g' (m_exp _ _ _ _ M1) Hc1 N2 (fun x Hx => Hne x (or_intror Hx)) E) as M2.
    eapply more_iff; [exact (more_trans _ _ _ _ _ _ _ M1 M2)| |].
    + intros a b w. unfold NewL. split.
      * intros [H|[x [Hx H]]]; [exists v; split; [left; reflexivity|exact H]|]. exists x. split; [right; exact Hx|]. unfold New1 in *.
        destruct H as [H|[H1 H2]]; [left; exact H|right]. split; [|exact H2]. destruct (lk (lg_rep g) x) as [cx|] eqn:Ex; [|reflexivity].
        destruct (m_old _ _ _ _ M1 x cx Ex) as [y [Hy _]]. congruence.
      * intros [x [[Hx|Hx] H]]; [left; subst; exact H|]. right. exists x. split; [exact Hx|]. unfold New1 in *. destruct H as [H|[H1 H2]]; [left; exact H|right].
        split; [|exact H2]. destruct (lk (lg_rep g1) x) as [cx|] eqn:Ex; [|reflexivity]. exfalso.
        assert (x = v) by (apply (proj1 (m_new _ _ _ _ M1 x H1)); congruence). subst. contradiction.
    + intros a Ha. cbn. destruct (cps_eq_dec a v) as [Eav|Eav]; [subst; tauto|]. split; [tauto|]. intros [H|H]; [left; congruence|right; tauto].
Qed.
