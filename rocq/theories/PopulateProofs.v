From Verif Require Import Base BaseFacts CharModel RepSpec RepProofs VariantProofs IterProofs VarSetSpec VarSetProofs.
From Verif Require Import RefModel LgrModel LgrSpec LgrProofs LgrReach LgrInv LgrRefs Rfc7940Model.
From Verif Require Import ValidateModel ValidateSpec ValidateProofs PopulateModel PopulateSpec.
Open Scope string_scope.
Open Scope list_scope.

(** ** Effects of the calls made *)
Definition same_rest (g g' : lgr) : Prop :=
  lg_db g' = lg_db g /\ lg_raise g' = lg_raise g /\ lg_refs g' = lg_refs g /\ lg_tags g' = lg_tags g /\
  rep_ranges (lg_rep g') = rep_ranges (lg_rep g).
Lemma same_rest_refl : forall g, same_rest g g.
Proof. intro g. unfold same_rest. auto. Qed.
Lemma same_rest_trans : forall a b c, same_rest a b -> same_rest b c -> same_rest a c.
Proof. intros a b c [A1 [A2 [A3 [A4 A5]]]] [B1 [B2 [B3 [B4 B5]]]]. unfold same_rest. repeat split; congruence. Qed.
Lemma same_entry_refl : forall ch, same_entry ch ch.
Proof. intro. unfold same_entry. auto 10. Qed.
Lemma same_entry_trans : forall a b c, same_entry a b -> same_entry b c -> same_entry a c.
Proof.
  intros a b c [A1 [A2 [A3 [A4 [A5 [A6 A7]]]]]] [B1 [B2 [B3 [B4 [B5 [B6 B7]]]]]]. unfold same_entry. repeat split; congruence.
Qed.
Lemma same_entry_range : forall a b, same_entry a b -> is_range b = is_range a.
Proof. intros a b [_ [H _]]. unfold is_range. rewrite H. reflexivity. Qed.

Lemma same_entry_set : forall ch vs, same_entry ch (set_variants ch vs).
Proof. intros. unfold same_entry. cbn. auto 10. Qed.

Lemma add_variant_same : forall ch v ch', char_add_variant ch v = Ok ch' -> same_entry ch ch'.
Proof.
  intros ch v ch' H. unfold char_add_variant in H. destruct (is_range ch); [discriminate|].
  destruct (v_cp v); [discriminate|]. destruct (dget _ _ _) as [l|].
  - destruct (memb _ _ _); [discriminate|]. injection H as H. subst. apply same_entry_set.
  - injection H as H. subst. apply same_entry_set.
Qed.
Lemma del_variant_same : forall ch v w nw ch' b, char_del_variant ch v w nw = Ok (ch', b) -> same_entry ch ch'.
Proof.
  intros ch v w nw ch' b H. unfold char_del_variant in H. destruct (is_range ch); [discriminate|].
  destruct v; [discriminate|]. destruct (dget _ _ _) as [l|]; [|injection H as H1 H2; subst; apply same_entry_refl].
  destruct (memb _ _ _); [|injection H as H1 H2; subst; apply same_entry_refl].
  destruct (remove1 _ _ _); injection H as H1 H2; subst; apply same_entry_set.
Qed.

Lemma put_ranges : forall r c ch, rep_ranges (rep_put r c ch) = rep_ranges r.
Proof. intros r [|x c] ch; [reflexivity|]. unfold rep_put. destruct (dget _ _ _); reflexivity. Qed.

(** [g'] is [g] with entry [c] turned into [ch']. *)
Definition updated (g g' : lgr) (c : cps) (ch' : char) : Prop :=
  same_rest g g' /\ forall x, lk (lg_rep g') x = if cps_eqb x c then Some ch' else lk (lg_rep g) x.

Lemma put_variant_spec : forall g c ch v ty w nw cm rf, lgr_reachable g -> lk (lg_rep g) c = Some ch ->
  check_convert g v = Ok v ->
  let '(g', o) := put_variant g c v ty w nw cm rf in
  lgr_reachable g' /\
  ((o = Ok tt /\ is_range ch = false /\ exists ch', updated g g' c ch' /\ same_entry ch ch' /\
     forall u, In u (get_variants ch') <-> u = mkVariant v ty w nw cm rf \/ In u (get_variants ch)) \/
   (exists e, o = Raise e /\ g' = g /\ is_lgr_exception e = true /\
     (is_range ch = true \/ (w <> None /\ nw <> None) \/ ~ NoDup rf \/ (exists x, In x rf /\ ~ defined_ref g x) \/
      In (v, w, nw) (map vkey (get_variants ch))))).
Proof.
  intros g c ch v ty w nw cm rf Hre Hc Hv.
  pose proof (lgr_reachable_step g (LAddVariant c v ty w nw cm rf None false false) Hre) as Hre'.
  unfold lgr_step in Hre'. unfold put_variant.
  destruct (lgr_add_variant g c v ty w nw cm rf None false false) as [g' o] eqn:E. cbn [fst] in Hre'. split; [exact Hre'|].
  pose proof (lgr_reachable_wf g Hre) as Hwf.
  assert (Hne : c <> []) by (intro; subst; discriminate).
  assert (Hcc : check_convert g c = Ok c) by (apply accepting_convert; [apply reachable_accepting; exact Hre|exact Hne|congruence]).
  unfold lgr_add_variant in E. rewrite Hcc in E. cbn [bind] in E. rewrite Hv in E. cbn [bind negb andb check_validating] in E.
  destruct (is_some w && is_some nw)%bool eqn:Ecx.
  { injection E as E1 E2. subst. right. eexists. split; [reflexivity|]. split; [reflexivity|]. split; [reflexivity|].
    right. left. apply andb_true_iff in Ecx. destruct w, nw; cbn in Ecx; try (destruct Ecx; discriminate). split; discriminate. }
  destruct (collect_refs_cases g false rf) as [[e [H1 H2]]|[H1 [H2 H3]]]; rewrite H1 in E.
  { injection E as E1 E2. subst. right. exists e. split; [reflexivity|]. split; [reflexivity|]. 
    destruct H2 as [_ [x [Hx He]]]. subst e. split; [reflexivity|]. right. right. right. left. exists x. apply first_such_In in Hx. exact Hx. }
  rewrite (H3 eq_refl) in E. rewrite andb_true_r in E.
  destruct (has_dup rf) eqn:Ed.
  { injection E as E1 E2. subst. right. eexists. split; [reflexivity|]. split; [reflexivity|]. split; [reflexivity|].
    right. right. left. apply has_dup_iff. exact Ed. }
  unfold rep_add_variant in E. rewrite get_char_lk in E by exact Hne. rewrite Hc in E.
  set (nv := mkVariant v ty w nw cm rf) in *.
  destruct (is_range ch) eqn:Er.
  { unfold char_add_variant in E. rewrite Er in E. injection E as E1 E2. subst. right. eexists. split; [reflexivity|].
    split; [destruct g; reflexivity|]. split; [reflexivity|]. left. reflexivity. }
  assert (Hvne : v_cp nv <> []) by (cbn; apply (check_convert_id g v v Hv)).
  destruct (add_variant_cases ch nv (lk_wf _ _ _ Hwf Hc) Er Hvne) as [[Hk Ev]|[Hk [ch' [Ev Hi]]]]; rewrite Ev in E.
  - injection E as E1 E2. subst. right. eexists. split; [reflexivity|]. split; [destruct g; reflexivity|]. split; [reflexivity|].
    right. right. right. right. exact Hk.
  - injection E as E1 E2. subst. left. split; [reflexivity|]. split; [reflexivity|]. exists ch'.
    pose proof (add_variant_same _ _ _ Ev) as Hs. split; [|split; [exact Hs|exact Hi]].
    split.
    + unfold same_rest, add_type, set_rep; cbn [lg_db lg_raise lg_refs lg_tags lg_rep]. rewrite put_ranges. auto.
    + intro x. cbn [add_type set_rep lg_rep]. apply lk_put; [|congruence]. destruct Hs as [Hs _]. rewrite Hs. apply (lk_cp _ _ _ Hc).
Qed.

Lemma del_variant_spec : forall g c ch v, lgr_reachable g -> lk (lg_rep g) c = Some ch -> v <> [] ->
  let '(g', o) := lgr_del_variant g c v None None in
  lgr_reachable g' /\
  ((is_range ch = false /\ exists b, o = Ok b /\ exists ch', updated g g' c ch' /\ same_entry ch ch' /\
     forall u, In u (get_variants ch') <-> In u (get_variants ch) /\ vkey u <> (v, None, None)) \/
   (exists e, o = Raise e /\ g' = g /\ is_lgr_exception e = true /\ is_range ch = true)).
Proof.
  intros g c ch v Hre Hc Hv.
  pose proof (lgr_reachable_step g (LDelVariant c v None None) Hre) as Hre'.
  unfold lgr_step in Hre'.
  destruct (lgr_del_variant g c v None None) as [g' o] eqn:E. cbn [fst] in Hre'. split; [exact Hre'|].
  pose proof (lgr_reachable_wf g Hre) as Hwf.
  assert (Hne : c <> []) by (intro; subst; discriminate).
  assert (Hcc : check_convert g c = Ok c) by (apply accepting_convert; [apply reachable_accepting; exact Hre|exact Hne|congruence]).
  unfold lgr_del_variant in E. rewrite Hcc in E. unfold rep_del_variant in E. rewrite get_char_lk in E by exact Hne. rewrite Hc in E.
  destruct (is_range ch) eqn:Er.
  { right. unfold char_del_variant in E. rewrite Er in E. injection E as E1 E2. subst. eexists. split; [reflexivity|].
    split; [destruct g; reflexivity|]. split; reflexivity. }
  left. split; [reflexivity|].
  destruct (del_variant_cases ch v None None (lk_wf _ _ _ Hwf Hc) Er Hv) as [ch' [b [Ev [_ [_ Hi]]]]]. rewrite Ev in E.
  injection E as E1 E2. subst. exists b. split; [reflexivity|]. exists ch'.
  pose proof (del_variant_same _ _ _ _ _ _ Ev) as Hs. split; [|split; [exact Hs|exact Hi]].
  split.
  - unfold same_rest, set_rep; cbn [lg_db lg_raise lg_refs lg_tags lg_rep]. rewrite put_ranges. auto.
  - intro x. cbn [set_rep lg_rep]. apply lk_put; [|congruence]. destruct Hs as [Hs _]. rewrite Hs. apply (lk_cp _ _ _ Hc).
Qed.

(** ** What never happens, and what is kept by calls that succeed *)
Definition keeps (g g' : lgr) : Prop :=
  same_rest g g' /\
  forall a ch, lk (lg_rep g) a = Some ch -> exists ch', lk (lg_rep g') a = Some ch' /\ same_entry ch ch'.
Definition kept (g0 g g' : lgr) : Prop :=
  keeps g g' /\ (forall a b, has_target (lg_rep g) a b -> has_target (lg_rep g') a b) /\
  (neat g0 -> forall a b v, mapping (lg_rep g) a b v ->
     exists w, mapping (lg_rep g') a b w /\ alike v w /\ (w = v \/ unconditional v)).
Lemma keeps_refl : forall g, keeps g g.
Proof. intro g. split; [apply same_rest_refl|]. intros a ch H. exists ch. split; [exact H|apply same_entry_refl]. Qed.
Lemma keeps_trans : forall a b c, keeps a b -> keeps b c -> keeps a c.
Proof.
  intros a b c [A1 A2] [B1 B2]. split; [eapply same_rest_trans; eauto|]. intros x ch H.
  destruct (A2 _ _ H) as [c1 [H1 H2]]. destruct (B2 _ _ H1) as [c2 [H3 H4]]. exists c2. split; [exact H3|eapply same_entry_trans; eauto].
Qed.
Lemma alike_refl : forall v, alike v v.
Proof. intro. unfold alike. auto. Qed.
Lemma alike_trans : forall a b c, alike a b -> alike b c -> alike a c.
Proof. unfold alike. intros a b c [A1 [A2 A3]] [B1 [B2 B3]]. repeat split; congruence. Qed.
Lemma kept_refl : forall g0 g, kept g0 g g.
Proof. intros g0 g. split; [apply keeps_refl|]. split; [auto|]. intros _ a b v H. exists v. split; [exact H|]. split; [apply alike_refl|auto]. Qed.
Lemma kept_trans : forall g0 a b c, kept g0 a b -> kept g0 b c -> kept g0 a c.
Proof.
  intros g0 a b c [A1 [A3 A2]] [B1 [B3 B2]]. split; [eapply keeps_trans; eauto|]. split; [auto|]. intros Hn x y v H.
  destruct (A2 Hn _ _ _ H) as [w [H1 [H2 H3]]]. destruct (B2 Hn _ _ _ H1) as [u [H4 [H5 H6]]].
  exists u. split; [exact H4|]. split; [eapply alike_trans; eauto|].
  destruct H3 as [H3|H3]; [subst w; exact H6|right; exact H3].
Qed.
Lemma kept_target : forall g0 g g' a b, kept g0 g g' -> has_target (lg_rep g) a b -> has_target (lg_rep g') a b.
Proof. intros g0 g g' a b [_ [H _]]. apply H. Qed.
Lemma keeps_lk : forall g g' a, keeps g g' -> lk (lg_rep g) a <> None -> lk (lg_rep g') a <> None.
Proof. intros g g' a [_ H] Hl. destruct (lk (lg_rep g) a) as [ch|] eqn:E; [|congruence]. destruct (H _ _ E) as [c [Hc _]]. congruence. Qed.

Lemma updated_lk_c : forall g g' c ch', updated g g' c ch' -> lk (lg_rep g') c = Some ch'.
Proof. intros g g' c ch' [_ H]. rewrite H, cps_eqb_refl. reflexivity. Qed.
Lemma updated_lk_other : forall g g' c ch' x, updated g g' c ch' -> x <> c -> lk (lg_rep g') x = lk (lg_rep g) x.
Proof. intros g g' c ch' x [_ H] Hx. rewrite H. rewrite (proj2 (cps_eqb_neq _ _) Hx). reflexivity. Qed.
Lemma updated_mapping : forall g g' c ch' a b w, updated g g' c ch' ->
  (mapping (lg_rep g') a b w <-> (a = c /\ In w (get_variants ch') /\ v_cp w = b) \/ (a <> c /\ mapping (lg_rep g) a b w)).
Proof.
  intros g g' c ch' a b w Hu. rewrite !mapping_lk. destruct (cps_eq_dec a c) as [E|E].
  - subst a. rewrite (updated_lk_c _ _ _ _ Hu). split.
    + intros [ch [H1 H2]]. injection H1 as H1. subst ch. left. tauto.
    + intros [[_ H]|[H _]]; [exists ch'; auto|congruence].
  - rewrite (updated_lk_other _ _ _ _ _ Hu E). split; [intro H; right; auto|]. intros [[H _]|[_ H]]; [congruence|exact H].
Qed.
Lemma updated_keeps : forall g g' c ch ch', lk (lg_rep g) c = Some ch -> updated g g' c ch' -> same_entry ch ch' -> keeps g g'.
Proof.
  intros g g' c ch ch' Hc Hu Hs. split; [apply Hu|]. intros a x Hx. destruct (cps_eq_dec a c) as [E|E].
  - subst a. exists ch'. split; [apply (updated_lk_c _ _ _ _ Hu)|]. congruence.
  - exists x. split; [|apply same_entry_refl]. rewrite (updated_lk_other _ _ _ _ _ Hu E). exact Hx.
Qed.

Record inv (g0 g : lgr) : Prop := mkInv {
  i_re : lgr_reachable g;
  i_keep : keeps g0 g;
  i_new : forall a ch, lk (lg_rep g) a = Some ch -> lk (lg_rep g0) a = None -> same_entry (bare a) ch /\ mentioned (lg_rep g0) a;
  i_tgt : forall a b, has_target (lg_rep g) a b -> has_target (lg_rep g0) a b \/ (a <> b /\ linked (lg_rep g0) a b);
  i_var : forall a b w, mapping (lg_rep g) a b w -> (exists v, mapping (lg_rep g0) a b v /\ alike v w) \/ plain_blocked w;
  i_good : populatable g0 -> populatable g;
  i_neat : neat g0 -> neat g
}.
Lemma inv_start : forall g, lgr_reachable g -> inv g g.
Proof.
  intros g H. constructor; auto.
  - apply keeps_refl.
  - intros; congruence.
  - intros a b w Hw. left. exists w. split; [exact Hw|apply alike_refl].
Qed.
Lemma defined_same : forall g g' x, same_rest g g' -> (defined_ref g' x <-> defined_ref g x).
Proof. intros g g' x [_ [_ [H _]]]. unfold defined_ref. rewrite H. tauto. Qed.
Lemma target_of : forall r a b v, mapping r a b v -> has_target r a b.
Proof. intros. exists v. auto. Qed.

Lemma inv_put : forall g0 g g' c ch ch' nv, inv g0 g -> lgr_reachable g' -> lk (lg_rep g) c = Some ch ->
  updated g g' c ch' -> same_entry ch ch' -> (forall u, In u (get_variants ch') <-> u = nv \/ In u (get_variants ch)) ->
  (has_target (lg_rep g0) c (v_cp nv) \/ (c <> v_cp nv /\ linked (lg_rep g0) c (v_cp nv))) ->
  ((exists v, mapping (lg_rep g0) c (v_cp nv) v /\ alike v nv) \/ plain_blocked nv) ->
  (populatable g0 -> (forall x, lk (lg_rep g) (v_cp nv) = Some x -> is_range x = false) /\
     (v_when nv = None \/ v_not_when nv = None) /\ NoDup (v_refs nv) /\ forall x, In x (v_refs nv) -> defined_ref g x) ->
  (neat g0 -> v_when nv <> Some "" /\ v_not_when nv <> Some "") ->
  inv g0 g' /\ kept g0 g g' /\ has_target (lg_rep g') c (v_cp nv) /\
  (forall a b, has_target (lg_rep g') a b -> has_target (lg_rep g) a b \/ (a = c /\ b = v_cp nv)).
Proof.
  intros g0 g g' c ch ch' nv HI Hre Hc Hu Hs Hv Ht Hn Hg Hneat.
  pose proof (updated_keeps _ _ _ _ _ Hc Hu Hs) as Hk.
  assert (Hmap : forall a b w, mapping (lg_rep g') a b w -> mapping (lg_rep g) a b w \/ (a = c /\ w = nv /\ b = v_cp nv)).
  { intros a b w H. apply (updated_mapping _ _ _ _ a b w Hu) in H. destruct H as [[E [H1 H2]]|[_ H]]; [|auto]. subst a.
    apply Hv in H1. destruct H1 as [H1|H1]; [right; subst; auto|]. left. apply mapping_lk. exists ch. auto. }
  assert (Hmap2 : forall a b w, mapping (lg_rep g) a b w -> mapping (lg_rep g') a b w).
  { intros a b w H. apply (updated_mapping _ _ _ _ a b w Hu). destruct (cps_eq_dec a c) as [E|E]; [|right; auto]. left. subst a.
    apply mapping_lk in H. destruct H as [x [H1 [H2 H3]]]. rewrite Hc in H1. injection H1 as H1. subst x. split; [reflexivity|]. split; [apply Hv; auto|exact H3]. }
  assert (Hnew : mapping (lg_rep g') c (v_cp nv) nv).
  { apply (updated_mapping _ _ _ _ _ _ _ Hu). left. split; [reflexivity|]. split; [apply Hv; auto|reflexivity]. }
  split; [|split; [|split]].
  - constructor; auto.
    + eapply keeps_trans; [apply HI|exact Hk].
    + intros a x Hx H0. destruct (cps_eq_dec a c) as [E|E].
      * subst a. rewrite (updated_lk_c _ _ _ _ Hu) in Hx. injection Hx as Hx. subst x.
        destruct (i_new _ _ HI c ch Hc H0) as [H1 H2]. split; [eapply same_entry_trans; eauto|exact H2].
      * rewrite (updated_lk_other _ _ _ _ _ Hu E) in Hx. apply (i_new _ _ HI a x Hx H0).
    + intros a b [w H]. destruct (Hmap _ _ _ H) as [H1|[H1 [H2 H3]]]; [apply (i_tgt _ _ HI); exists w; exact H1|]. subst a b. exact Ht.
    + intros a b w H. destruct (Hmap _ _ _ H) as [H1|[H1 [H2 H3]]]; [apply (i_var _ _ HI); exact H1|]. subst a b w. exact Hn.
    + intro Hp. destruct (i_good _ _ HI Hp) as [P1 P2]. destruct (Hg Hp) as [Q1 [Q2 [Q3 Q4]]]. split.
      * intros a b x [w H] Hx. rewrite lookup_lk in Hx.
        assert (Hb : exists y, lk (lg_rep g) b = Some y /\ is_range x = is_range y).
        { destruct (cps_eq_dec b c) as [E|E].
          - subst b. rewrite (updated_lk_c _ _ _ _ Hu) in Hx. injection Hx as Hx. subst x. exists ch. split; [exact Hc|]. apply same_entry_range. exact Hs.
          - rewrite (updated_lk_other _ _ _ _ _ Hu E) in Hx. exists x. auto. }
        destruct Hb as [y [Hy1 Hy2]]. rewrite Hy2.
        destruct (Hmap _ _ _ H) as [H1|[_ [_ H3]]]; [|subst b; auto].
        eapply P1; [exists w; exact H1|]. rewrite lookup_lk. exact Hy1.
      * intros a b w H. destruct (Hmap _ _ _ H) as [H1|[_ [H2 _]]].
        -- destruct (P2 _ _ _ H1) as [R1 [R2 R3]]. split; [exact R1|]. split; [exact R2|]. intros x Hx. apply (defined_same g g' x); [apply Hu|]. auto.
        -- subst w. split; [exact Q2|]. split; [exact Q3|]. intros x Hx. apply (defined_same g g' x); [apply Hu|]. auto.
    + intros Hp a b w H. destruct (Hmap _ _ _ H) as [H1|[_ [H2 _]]]; [apply (i_neat _ _ HI Hp _ _ _ H1)|subst w; auto].
  - split; [exact Hk|]. split; [intros a b [v H]; exists v; auto|]. intros _ a b v H. exists v. split; [auto|]. split; [apply alike_refl|auto].
  - exists nv. exact Hnew.
  - intros a b [w H]. destruct (Hmap _ _ _ H) as [H1|[H1 [_ H3]]]; [left; exists w; exact H1|right; auto].
Qed.

Lemma inv_del : forall g0 g g' c ch ch' vcp, inv g0 g -> lgr_reachable g' -> lk (lg_rep g) c = Some ch ->
  updated g g' c ch' -> same_entry ch ch' ->
  (forall u, In u (get_variants ch') <-> In u (get_variants ch) /\ vkey u <> (vcp, None, None)) ->
  inv g0 g' /\ keeps g g' /\ (forall a b w, mapping (lg_rep g') a b w -> mapping (lg_rep g) a b w) /\
  (forall a b w, mapping (lg_rep g) a b w -> mapping (lg_rep g') a b w \/ (a = c /\ vkey w = (vcp, None, None))).
Proof.
  intros g0 g g' c ch ch' vcp HI Hre Hc Hu Hs Hv.
  pose proof (updated_keeps _ _ _ _ _ Hc Hu Hs) as Hk.
  assert (Hmap : forall a b w, mapping (lg_rep g') a b w -> mapping (lg_rep g) a b w).
  { intros a b w H. apply (updated_mapping _ _ _ _ a b w Hu) in H. destruct H as [[E [H1 H2]]|[_ H]]; [|auto]. subst a.
    apply Hv in H1. apply mapping_lk. exists ch. tauto. }
  split; [|split; [|split]].
  - constructor; auto.
    + eapply keeps_trans; [apply HI|exact Hk].
    + intros a x Hx H0. destruct (cps_eq_dec a c) as [E|E].
      * subst a. rewrite (updated_lk_c _ _ _ _ Hu) in Hx. injection Hx as Hx. subst x.
        destruct (i_new _ _ HI c ch Hc H0) as [H1 H2]. split; [eapply same_entry_trans; eauto|exact H2].
      * rewrite (updated_lk_other _ _ _ _ _ Hu E) in Hx. apply (i_new _ _ HI a x Hx H0).
    + intros a b [w H]. apply (i_tgt _ _ HI). exists w. auto.
    + intros a b w H. apply (i_var _ _ HI). auto.
    + intro Hp. destruct (i_good _ _ HI Hp) as [P1 P2]. split.
      * intros a b x [w H] Hx. rewrite lookup_lk in Hx.
        destruct (cps_eq_dec b c) as [E|E].
        -- subst b. rewrite (updated_lk_c _ _ _ _ Hu) in Hx. injection Hx as Hx. subst x. rewrite (same_entry_range _ _ Hs).
           eapply P1; [exists w; apply Hmap; exact H|]. rewrite lookup_lk. exact Hc.
        -- rewrite (updated_lk_other _ _ _ _ _ Hu E) in Hx. eapply P1; [exists w; apply Hmap; exact H|]. rewrite lookup_lk. exact Hx.
      * intros a b w H. destruct (P2 _ _ _ (Hmap _ _ _ H)) as [R1 [R2 R3]]. split; [exact R1|]. split; [exact R2|].
        intros x Hx. apply (defined_same g g' x); [apply Hu|]. auto.
    + intros Hp a b w H. apply (i_neat _ _ HI Hp _ _ _ (Hmap _ _ _ H)).
  - exact Hk.
  - exact Hmap.
  - intros a b w H. destruct (cps_eq_dec a c) as [E|E].
    + subst a. apply mapping_lk in H. destruct H as [x [H1 [H2 H3]]]. rewrite Hc in H1. injection H1 as H1. subst x.
      destruct (list_eq_dec N.eq_dec (v_cp w) vcp) as [Ec|Ec]; [destruct (v_when w) eqn:E1; [|destruct (v_not_when w) eqn:E2]|].
      all: try (left; apply (updated_mapping _ _ _ _ _ _ _ Hu); left; split; [reflexivity|]; split; [apply Hv; split; [exact H2|]; unfold vkey; congruence|exact H3]).
      right. split; [reflexivity|]. unfold vkey. congruence.
    + left. apply (updated_mapping _ _ _ _ _ _ _ Hu). right. auto.
Qed.

(** ** Loops over all mappings *)
Section Loop.
  Variable g0 : lgr.
  Variable I : lgr -> Prop.
  Variable Post : lgr -> cps -> cps -> Prop.
  Variable f : lgr -> cps -> variant -> lgr * res unit.

  Definition outcome (g : lgr) (x : lgr * res unit) (Q : lgr -> Prop) : Prop :=
    inv g0 (fst x) /\ keeps g (fst x) /\
    match snd x with
    | Ok _ => I (fst x) /\ kept g0 g (fst x) /\ Q (fst x)
    | Raise e => is_lgr_exception e = true /\ ~ populatable g0
    end.
  Definition one_context (v : variant) : Prop := v_when v = None \/ v_not_when v = None.
  Definition visible (v : variant) : Prop := v_when v <> Some "" /\ v_not_when v <> Some "".

  Hypothesis HI : forall g, I g -> inv g0 g.
  Hypothesis Hpost : forall g g' a b, Post g a b -> kept g0 g g' -> Post g' a b.
  Hypothesis Hstep : forall g a v, I g -> has_target (lg_rep g) a (v_cp v) -> (populatable g0 -> one_context v) ->
    (neat g0 -> visible v) -> outcome g (f g a v) (fun g' => Post g' a (v_cp v)).

  Lemma outcome_seq : forall g g1 x Q, kept g0 g g1 -> outcome g1 x Q -> outcome g x Q.
  Proof.
    intros g g1 [g2 o] Q Hk [H1 [H2 H3]]. cbn [fst snd] in *. split; [exact H1|]. split; [eapply keeps_trans; [apply Hk|exact H2]|].
    cbn [fst snd]. destruct o; [|exact H3]. destruct H3 as [H3 [H4 H5]]. split; [exact H3|]. split; [eapply kept_trans; eauto|exact H5].
  Qed.
  Lemma outcome_weak : forall g x (Q Q' : lgr -> Prop), (forall g', I g' -> kept g0 g g' -> Q g' -> Q' g') -> outcome g x Q -> outcome g x Q'.
  Proof.
    intros g [g2 o] Q Q' HQ [H1 [H2 H3]]. cbn [fst snd] in *. split; [exact H1|]. split; [exact H2|]. cbn [fst snd]. destruct o; [|exact H3].
    destruct H3 as [H3 [H4 H5]]. auto.
  Qed.
  Lemma outcome_here : forall g (Q : lgr -> Prop), I g -> Q g -> outcome g (g, Ok tt) Q.
  Proof.
    intros g Q Hg HQ. split; [apply HI; exact Hg|]. split; [apply keeps_refl|]. cbn [fst snd]. split; [exact Hg|]. split; [apply kept_refl|exact HQ].
  Qed.

  Lemma each_variant_spec : forall a l g, I g ->
    (forall v, In v l -> has_target (lg_rep g) a (v_cp v) /\ (populatable g0 -> one_context v) /\ (neat g0 -> visible v)) ->
    outcome g (each_variant f g a l) (fun g' => forall v, In v l -> Post g' a (v_cp v)).
  Proof.
    intros a l. induction l as [|b l IH]; intros g Hg Hl; cbn [each_variant].
    - apply outcome_here; [exact Hg|]. intros v [].
    - destruct (Hl b (or_introl eq_refl)) as [Hb [Hcx Hvis]]. pose proof (Hstep g a b Hg Hb Hcx Hvis) as Hs.
      destruct (f g a b) as [g1 o] eqn:E. destruct Hs as [S1 [S2 S3]]. cbn [fst snd] in *. destruct o as [u|e].
      + destruct S3 as [S3 [S4 S5]]. eapply outcome_seq; [exact S4|]. eapply outcome_weak; [|apply IH; [exact S3|]].
        * intros g' Hg' Hk Hq v [Hv|Hv]; [subst v; eapply Hpost; eauto|auto].
        * intros v Hv. destruct (Hl v (or_intror Hv)) as [H1 H2]. split; [eapply kept_target; eauto|exact H2].
      + split; [exact S1|]. split; [exact S2|exact S3].
  Qed.

  Lemma snapshot_ok : forall g a ch v, I g -> lk (lg_rep g) a = Some ch -> In v (get_variants ch) ->
    has_target (lg_rep g) a (v_cp v) /\ (populatable g0 -> one_context v) /\ (neat g0 -> visible v).
  Proof.
    intros g a ch v Hg Hl Hv. assert (Hm : mapping (lg_rep g) a (v_cp v) v) by (apply mapping_lk; exists ch; auto). split; [exists v; exact Hm|].
    split; intro Hp; [|apply (i_neat _ _ (HI g Hg) Hp _ _ _ Hm)]. destruct (i_good _ _ (HI g Hg) Hp) as [_ P]. apply (P _ _ _ Hm).
  Qed.

  Lemma each_char_spec : forall l g, I g -> (forall c, In c l -> lk (lg_rep g) (ch_cp c) <> None) ->
    outcome g (each_char f g l) (fun g' => forall c b, In c l -> has_target (lg_rep g) (ch_cp c) b -> Post g' (ch_cp c) b).
  Proof.
    intros l. induction l as [|c l IH]; intros g Hg Hl; cbn [each_char].
    - apply outcome_here; [exact Hg|]. intros c b [].
    - pose proof (Hl c (or_introl eq_refl)) as Hc. destruct (lk (lg_rep g) (ch_cp c)) as [cur|] eqn:E; [|congruence].
      assert (Hne : ch_cp c <> []) by (intro H; rewrite H in E; discriminate).
      rewrite get_char_lk by exact Hne. rewrite E.
      pose proof (each_variant_spec (ch_cp c) (get_variants cur) g Hg (fun v Hv => snapshot_ok g _ cur v Hg E Hv)) as Hs.
      destruct (each_variant f g (ch_cp c) (get_variants cur)) as [g1 o]. destruct Hs as [S1 [S2 S3]]. cbn [fst snd] in *. destruct o as [u|e].
      + destruct S3 as [S3 [S4 S5]]. eapply outcome_seq; [exact S4|]. eapply outcome_weak; [|apply IH; [exact S3|]].
        * intros g' Hg' Hk Hq d b [Hd|Hd] Ht; [|apply Hq; [exact Hd|eapply kept_target; eauto]]. subst d.
          destruct Ht as [v Hv]. apply mapping_lk in Hv. destruct Hv as [x [H1 [H2 H3]]]. rewrite E in H1. injection H1 as H1. subst x b.
          eapply Hpost; [apply S5; exact H2|exact Hk].
        * intros d Hd. eapply keeps_lk; [exact S2|]. apply Hl. right. exact Hd.
      + split; [exact S1|]. split; [exact S2|exact S3].
  Qed.

  Lemma each_key_spec : forall ks g last, I g ->
    outcome g (each_key f g last ks) (fun g' => forall k t b, In k ks -> has_target (lg_rep g) (k :: t) b -> Post g' (k :: t) b).
  Proof.
    intros ks. induction ks as [|k ks IH]; intros g last Hg; cbn [each_key].
    - apply outcome_here; [exact Hg|]. intros k t b [].
    - set (last1 := match last with Some lc => if N.ltb lc k then None else Some lc | None => None end).
      pose proof (lgr_reachable_wf g (i_re _ _ (HI g Hg))) as Hwf.
      pose proof (iter_bucket_sub (isort len_leb (bucket (lg_rep g) k)) last1) as Hsub.
      pose proof (iter_bucket_nonrange (isort len_leb (bucket (lg_rep g) k)) last1) as Hnr.
      destruct (iter_bucket last1 (isort len_leb (bucket (lg_rep g) k))) as [last' out]. cbn [snd] in Hsub, Hnr.
      assert (Hout : forall c, In c out -> lk (lg_rep g) (ch_cp c) <> None).
      { intros c Hc. apply Hsub in Hc. apply isort_In in Hc. assert (Hin : In c (all_chars (lg_rep g))) by (apply all_chars_bucket; eauto).
        apply in_all_chars_lk in Hin; [congruence|exact Hwf]. }
      pose proof (each_char_spec out g Hg Hout) as Hs.
      destruct (each_char f g out) as [g1 o]. destruct Hs as [S1 [S2 S3]]. cbn [fst snd] in *. destruct o as [u|e].
      + destruct S3 as [S3 [S4 S5]]. eapply outcome_seq; [exact S4|]. eapply outcome_weak; [|apply IH; exact S3].
        intros g' Hg' Hk Hq k' t b [Hd|Hd] Ht; [|apply Hq; [exact Hd|eapply kept_target; eauto]]. subst k'.
        pose proof Ht as Ht'. destruct Ht' as [v Hv]. apply mapping_lk in Hv. destruct Hv as [x [H1 [H2 H3]]].
        pose proof (lk_cp _ _ _ H1) as Hcp.
        eapply Hpost; [|exact Hk]. rewrite <- Hcp. apply S5; [|rewrite Hcp; exact Ht].
        apply Hnr.
        * apply isort_In. simpl in H1. apply find_some in H1. apply H1.
        * destruct (is_range x) eqn:Er; [|reflexivity]. rewrite (range_get_variants x (lk_wf _ _ _ Hwf H1) Er) in H2. contradiction.
      + split; [exact S1|]. split; [exact S2|exact S3].
  Qed.

  Lemma each_mapping_spec : forall g, I g ->
    outcome g (each_mapping f g) (fun g' => forall a b, has_target (lg_rep g) a b -> Post g' a b).
  Proof.
    intros g Hg. unfold each_mapping. eapply outcome_weak; [|apply each_key_spec; exact Hg].
    intros g' Hg' Hk Hq a b Ht. pose proof Ht as Ht'. destruct Ht' as [v Hv]. apply mapping_lk in Hv. destruct Hv as [x [H1 _]].
    destruct a as [|k t]; [discriminate|]. apply Hq; [|exact Ht]. apply isort_In.
    simpl in H1. apply find_some in H1. destruct H1 as [H1 _]. unfold bucket in H1.
    destruct (dget N.eqb k (rep_chars (lg_rep g))) eqn:E; [|contradiction]. apply (dget_In _ N_eqb_iff) in E. apply (in_map fst) in E. exact E.
  Qed.
End Loop.
