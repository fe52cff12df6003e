From Coq Require Import Permutation.
From Verif Require Import Base BaseFacts CharModel RepSpec RepProofs VariantProofs IterProofs VarSetProofs UtilsModel RefModel RefSpec RefProofs
  ActionModel LgrModel LgrSpec LgrProofs LgrReach LgrInv PopulateModel PopulateSpec PopulateProofs MetaModel CompareModel CompareSpec.
Open Scope string_scope.
Open Scope list_scope.

(** ** Sets as lists *)
Section Sets.
  Context {A : Type}.
  Variable eqb : A -> A -> bool.
  Hypothesis Heq : forall a b, eqb a b = true <-> a = b.
  Lemma set_union_In : forall a b x, In x (set_union eqb a b) <-> In x a \/ In x b.
  Proof. intros. unfold set_union. rewrite (dedup_In _ _ Heq), in_app_iff. tauto. Qed.
  Lemma set_inter_In : forall a b x, In x (set_inter eqb a b) <-> In x a /\ In x b.
  Proof. intros. unfold set_inter. rewrite filter_In, (dedup_In _ _ Heq), (memb_In _ _ Heq). tauto. Qed.
  Lemma set_diff_In : forall a b x, In x (set_diff eqb a b) <-> In x a /\ ~ In x b.
  Proof.
    intros. unfold set_diff. rewrite filter_In, (dedup_In _ _ Heq), negb_true_iff.
    pose proof (memb_In _ _ Heq x b) as H. destruct (memb eqb x b); intuition; try discriminate.
  Qed.
  Lemma set_union_NoDup : forall a b, NoDup (set_union eqb a b).
  Proof. intros. apply (dedup_NoDup _ _ Heq). Qed.
  Lemma set_inter_NoDup : forall a b, NoDup (set_inter eqb a b).
  Proof. intros. unfold set_inter. apply NoDup_filter. apply (dedup_NoDup _ _ Heq). Qed.
  Lemma set_diff_NoDup : forall a b, NoDup (set_diff eqb a b).
  Proof. intros. unfold set_diff. apply NoDup_filter. apply (dedup_NoDup _ _ Heq). Qed.
End Sets.

(** The same for variants, told apart by their keys. *)
Lemma variant_eqb_key : forall a b, variant_eqb a b = true <-> vkey a = vkey b.
Proof.
  intros a b. unfold variant_eqb, vkey. rewrite !andb_true_iff, cps_eqb_eq, !ostring_eqb_eq. split.
  - intros [[H1 H2] H3]. congruence.
  - intro H. injection H as H1 H2 H3. auto.
Qed.
Lemma memb_vkey : forall v l, memb variant_eqb v l = true <-> In (vkey v) (map vkey l).
Proof.
  intros v l. unfold memb. rewrite existsb_exists, in_map_iff. split.
  - intros [x [H1 H2]]. exists x. apply variant_eqb_key in H2. auto.
  - intros [x [H1 H2]]. exists x. split; auto. apply variant_eqb_key. auto.
Qed.
Lemma dedup_vkey_aux : forall l seen,
  NoDup (map vkey (dedup_aux variant_eqb seen l)) /\
  (forall v, In v (dedup_aux variant_eqb seen l) -> In v l /\ ~ In (vkey v) (map vkey seen)) /\
  (forall v, In v l -> In (vkey v) (map vkey seen) \/ In (vkey v) (map vkey (dedup_aux variant_eqb seen l))).
Proof.
  induction l as [|x l IH]; intro seen; [split; [constructor|split; [intros v []|intros v []]]|].
  cbn [dedup_aux]. destruct (memb variant_eqb x seen) eqn:E.
  - destruct (IH seen) as [H1 [H2 H3]]. apply memb_vkey in E. split; auto. split.
    + intros v Hv. destruct (H2 v Hv). split; auto. right. auto.
    + intros v [Hv|Hv]; [subst; auto|auto].
  - destruct (IH (x :: seen)) as [H1 [H2 H3]]. cbn [map].
    assert (E' : ~ In (vkey x) (map vkey seen)) by (intro H; apply memb_vkey in H; congruence).
    split; [|split].
    + constructor; auto. intro H. apply in_map_iff in H. destruct H as [v [Hv1 Hv2]].
      apply H2 in Hv2. destruct Hv2 as [_ Hv2]. apply Hv2. left. auto.
    + intros v [Hv|Hv]; [subst; split; [left; auto|exact E']|]. destruct (H2 v Hv) as [H4 H5]. split; [right; auto|].
      intro H. apply H5. right. auto.
    + intros v [Hv|Hv]; [subst; right; left; auto|]. destruct (H3 v Hv) as [[H|H]|H]; [right; left; auto|left; auto|right; right; auto].
Qed.
Lemma NoDup_vkey_eq : forall l a b, NoDup (map vkey l) -> In a l -> In b l -> vkey a = vkey b -> a = b.
Proof.
  induction l as [|x l IH]; intros a b Hn Ha Hb He; [destruct Ha|]. cbn in Hn. inversion Hn as [|? ? N1 N2]; subst.
  destruct Ha as [Ha|Ha], Hb as [Hb|Hb]; subst; auto.
  - exfalso. apply N1. rewrite He. apply in_map. exact Hb.
  - exfalso. apply N1. rewrite <- He. apply in_map. exact Ha.
Qed.
(** First variants win. *)
Lemma union_variants : forall a b, NoDup (map vkey a) -> NoDup (map vkey b) ->
  NoDup (map vkey (set_union variant_eqb a b)) /\
  forall v, In v (set_union variant_eqb a b) <-> In v a \/ (In v b /\ ~ In (vkey v) (map vkey a)).
Proof.
  intros a b Ha Hb. unfold set_union, dedup. destruct (dedup_vkey_aux (a ++ b) []) as [H1 [H2 _]]. split; auto.
  assert (G : forall a seen, NoDup (map vkey a) -> (forall v, In v a -> ~ In (vkey v) (map vkey seen)) ->
     forall v, In v (dedup_aux variant_eqb seen (a ++ b)) <->
       In v a \/ (In v b /\ ~ In (vkey v) (map vkey a) /\ ~ In (vkey v) (map vkey seen))).
  { clear a Ha H1 H2. induction a as [|x a IH]; intros seen Hn Hs v.
    - cbn [app map In].
      destruct (dedup_vkey_aux b seen) as [H1 [H2 H3]]. split.
      + intro H. right. apply H2 in H. tauto.
      + intros [[]|[H4 [_ H5]]]. destruct (H3 v H4) as [H|H]; [contradiction|].
        apply in_map_iff in H. destruct H as [w [Hw1 Hw2]]. replace v with w; auto.
        apply (NoDup_vkey_eq b); auto. apply H2 in Hw2. tauto.
    - cbn in Hn. inversion Hn as [|? ? N1 N2]; subst. cbn [app dedup_aux].
      destruct (memb variant_eqb x seen) eqn:E.
      { apply memb_vkey in E. exfalso. apply (Hs x); [left; auto|exact E]. }
      cbn [In]. rewrite IH; [|exact N2|].
      + cbn [map In]. tauto.
      + intros w Hw [H|H]; [apply N1; rewrite H; apply in_map; exact Hw|]. apply (Hs w); [right; auto|exact H]. }
  intro v. rewrite (G a [] Ha) by (intros ? ? []). cbn. tauto.
Qed.
Lemma vkey_bare : forall v, vkey (bare v) = vkey v.
Proof. reflexivity. Qed.
Lemma map_vkey_bare : forall l, map vkey (map bare l) = map vkey l.
Proof. intro. rewrite map_map. reflexivity. Qed.
Lemma inter_variants : forall a b, NoDup (map vkey a) -> NoDup (map vkey b) ->
  NoDup (map vkey (set_inter variant_eqb (map bare a) (map bare b))) /\
  forall u, In u (set_inter variant_eqb (map bare a) (map bare b)) <->
    exists v, In v a /\ In (vkey v) (map vkey b) /\ u = bare v.
Proof.
  intros a b Ha Hb. unfold set_inter, dedup. destruct (dedup_vkey_aux (map bare a) []) as [H1 [H2 H3]].
  assert (Hf : forall f l, NoDup (map vkey l) -> NoDup (map vkey (filter f l))).
  { clear. intros f. induction l as [|x l IH]; intro Hn; [constructor|]. inversion Hn as [|? ? N1 N2]; subst. cbn [filter].
    destruct (f x); [|auto]. cbn [map]. constructor; auto. intro H. apply N1. apply in_map_iff in H. destruct H as [y [Hy1 Hy2]].
    apply filter_In in Hy2. rewrite <- Hy1. apply in_map. tauto. }
  split; [apply Hf; exact H1|]. intro u. rewrite filter_In, memb_vkey, map_vkey_bare. split.
  - intros [H4 H5]. apply H2 in H4. destruct H4 as [H4 _]. apply in_map_iff in H4. destruct H4 as [v [Hv1 Hv2]].
    exists v. subst u. auto.
  - intros [v [Hv1 [Hv2 Hu]]]. subst u. split; [|exact Hv2].
    destruct (H3 (bare v) (in_map _ _ _ Hv1)) as [[]|H]. apply in_map_iff in H. destruct H as [w [Hw1 Hw2]].
    replace (bare v) with w; auto. apply (NoDup_vkey_eq (map bare a)); auto.
    + rewrite map_vkey_bare. exact Ha.
    + apply H2 in Hw2. tauto.
    + apply in_map. exact Hv1.
Qed.

(** ** Building the result *)
Definition building (refs : refman) (g : lgr) : Prop := lgr_reachable g /\ lg_db g = None /\ lg_refs g = refs.
Definition entry_is (ch : char) (c : cps) (cm : option string) (tags : list string) (w nw : option string) (vs : list variant) : Prop :=
  ch_cp ch = c /\ ch_kind ch = kind_of c /\ ch_comment ch = cm /\ ch_refs ch = [] /\ ch_tags ch = tags /\
  ch_when ch = w /\ ch_not_when ch = nw /\
  forall u, In u (get_variants ch) <-> In u (map unreferenced vs).

Lemma convert_any : forall g c, lg_db g = None -> c <> [] -> check_convert g c = Ok c.
Proof. intros g c Hg Hc. unfold check_convert, check_convert_with. rewrite Hg. destruct c; [congruence|reflexivity]. Qed.

Lemma copy_variants_ok : forall vs R g c ch, building R g -> lk (lg_rep g) c = Some ch -> is_range ch = false ->
  NoDup (map vkey vs) -> (forall v, In v vs -> ~ In (vkey v) (map vkey (get_variants ch))) ->
  (forall v, In v vs -> v_cp v <> [] /\ one_context (v_when v) (v_not_when v)) ->
  exists g' ch', each_variant copy_variant g c vs = (g', Ok tt) /\ building R g' /\
    (forall x, lk (lg_rep g') x = if cps_eqb x c then Some ch' else lk (lg_rep g) x) /\
    same_entry ch ch' /\
    (forall u, In u (get_variants ch') <-> In u (get_variants ch) \/ In u (map unreferenced vs)).
Proof.
  induction vs as [|v vs IH]; intros R g c ch Hb Hc Hr Hn Hd Hv.
  - exists g, ch. split; [reflexivity|]. split; [exact Hb|]. split; [|split; [apply same_entry_refl|cbn; tauto]].
    intro x. destruct (cps_eqb x c) eqn:E; auto. apply cps_eqb_eq in E. subst. exact Hc.
  - cbn [each_variant]. cbn [map] in Hn. inversion Hn as [|? ? N1 N2]; subst.
    destruct (Hv v (or_introl eq_refl)) as [Hne Hcx]. destruct Hb as [B1 [B2 B3]].
    pose proof (put_variant_spec g c ch (v_cp v) (v_type v) (v_when v) (v_not_when v) (v_comment v) [] B1 Hc (convert_any g _ B2 Hne)) as Hp.
    unfold copy_variant at 1. destruct (put_variant g c (v_cp v) (v_type v) (v_when v) (v_not_when v) (v_comment v) []) as [g1 o] eqn:Eg.
    destruct Hp as [P1 P2]. destruct P2 as [[P2 [_ [ch1 [P3 [P4 P5]]]]]|[e [_ [_ [_ P2]]]]].
    2:{ exfalso. destruct P2 as [P2|[[P2 P3]|[P2|[[x [[] _]]|P2]]]].
        - congruence.
        - destruct Hcx; contradiction.
        - apply P2. constructor.
        - apply (Hd v (or_introl eq_refl)). exact P2. }
    subst o.
    assert (Hb1 : building R g1).
    { destruct P3 as [[R1 [_ [R3 _]]] _]. split; [exact P1|]. split; congruence. }
    destruct (IH R g1 c ch1 Hb1 (updated_lk_c _ _ _ _ P3)) as [g2 [ch2 [Q1 [Q2 [Q3 [Q4 Q5]]]]]].
    + rewrite (same_entry_range _ _ P4). exact Hr.
    + exact N2.
    + intros u Hu Hk. apply in_map_iff in Hk. destruct Hk as [z [Hz1 Hz2]]. apply P5 in Hz2. destruct Hz2 as [Hz2|Hz2].
      * apply N1. subst z. assert (Hz : vkey v = vkey u) by exact Hz1. rewrite Hz. apply in_map. exact Hu.
      * apply (Hd u (or_intror Hu)). rewrite <- Hz1. apply in_map. exact Hz2.
    + intros u Hu. apply Hv. right. exact Hu.
    + exists g2, ch2. split; [exact Q1|]. split; [exact Q2|]. split; [|split; [eapply same_entry_trans; eauto|]].
      * intro x. rewrite Q3. destruct (cps_eqb x c) eqn:E; auto. apply cps_eqb_neq in E. apply (updated_lk_other _ _ _ _ _ P3 E).
      * intro u. rewrite Q5, P5. cbn [map In]. fold (unreferenced v). intuition.
Qed.

Lemma add_entry_ok : forall R g c cm tags w nw vs, building R g -> lk (lg_rep g) c = None -> c <> [] ->
  NoDup tags -> ((1 < length c)%nat -> tags = []) -> one_context w nw -> NoDup (map vkey vs) ->
  (forall v, In v vs -> v_cp v <> [] /\ one_context (v_when v) (v_not_when v)) ->
  exists g' ch, add_entry g c cm tags w nw vs = (g', Ok tt) /\ building R g' /\
    (forall x, lk (lg_rep g') x = if cps_eqb x c then Some ch else lk (lg_rep g) x) /\ entry_is ch c cm tags w nw vs.
Proof.
  intros R g c cm tags w nw vs Hb Hc Hne Ht Hs Hx Hn Hv. unfold add_entry.
  pose proof Hb as [B1 [B2 B3]].
  pose proof (lgr_reachable_step g (LAddCp c cm [] tags w nw None false false) B1) as Hre. unfold lgr_step in Hre.
  destruct (add_cp_spec g c cm [] tags w nw None false false) as [r [A1 A2]].
  destruct (lgr_add_cp g c cm [] tags w nw None false false) as [g1 x]. cbn [fst] in Hre.
  assert (r = None) as ->.
  { unfold add_cp_checks in A1. cbn [first_failing] in A1.
    destruct A1 as [[e [[H _] _]]|[_ A1]]; [contradiction|].
    destruct A1 as [[e [[_ [y [Hy _]]] _]]|[_ A1]].
    { apply first_such_In in Hy. destruct Hy as [_ [d [Hy _]]]. congruence. }
    destruct A1 as [[e [[_ [H1 [H2 _]]] _]]|[_ A1]]; [destruct Hx; contradiction|].
    destruct A1 as [[e [[v [y [H _]]] _]]|[_ A1]]; [discriminate|].
    destruct A1 as [[e [[_ [y [Hy _]]] _]]|[_ A1]]; [apply first_such_In in Hy; destruct Hy as [[] _]|].
    destruct A1 as [[e [[_ [Hy _]] _]]|[_ A1]]; [exfalso; apply Hy; constructor|].
    destruct A1 as [[e [[_ [H1 [H2 _]]] _]]|[_ A1]]; [exfalso; apply H2; apply Hs; exact H1|].
    destruct A1 as [[e [[_ [Hy _]] _]]|[_ A1]]; [contradiction|].
    destruct A1 as [[e [[Hy _] _]]|[_ A1]]; [exfalso; apply Hy; rewrite lookup_lk; exact Hc|]. exact A1. }
  destruct A2 as [A2 [A3 [A4 [A5 [A6 [A7 [A8 A9]]]]]]]. subst x. cbn [andthen].
  rewrite lookup_lk in A3. change (kept_refs g []) with (@nil string) in A3.
  set (ch0 := mkChar c (kind_of c) cm [] tags w nw []) in *.
  assert (Hb1 : building R g1) by (split; [exact Hre|split; congruence]).
  destruct (copy_variants_ok vs R g1 c ch0 Hb1 A3) as [g' [ch' [Q1 [Q2 [Q3 [Q4 Q5]]]]]]; auto.
  { unfold is_range, ch0. cbn [ch_kind]. destruct c as [|? [|]]; reflexivity. }
  exists g', ch'. split; [exact Q1|]. split; [exact Q2|]. split.
  - intro x. rewrite Q3. destruct (cps_eqb x c) eqn:E; auto. apply cps_eqb_neq in E. rewrite <- !lookup_lk. apply A4. exact E.
  - destruct Q4 as [S1 [S2 [S3 [S4 [S5 [S6 S7]]]]]]. unfold entry_is, ch0 in *.
    cbn [ch_cp ch_kind ch_comment ch_refs ch_tags ch_when ch_not_when] in *.
    repeat (split; [congruence|]). intro u. rewrite Q5. cbn. tauto.
Qed.

Lemma each_cp_ok : forall (E : cps -> char -> Prop) f R l g, NoDup l ->
  (forall c g, In c l -> building R g -> lk (lg_rep g) c = None ->
     exists g' ch, f g c = (g', Ok tt) /\ building R g' /\
       (forall x, lk (lg_rep g') x = if cps_eqb x c then Some ch else lk (lg_rep g) x) /\ E c ch) ->
  building R g -> (forall c, In c l -> lk (lg_rep g) c = None) ->
  exists g', each_cp f g l = (g', Ok tt) /\ building R g' /\
    (forall c, In c l -> exists ch, lk (lg_rep g') c = Some ch /\ E c ch) /\
    (forall c, ~ In c l -> lk (lg_rep g') c = lk (lg_rep g) c).
Proof.
  intros E f R. induction l as [|c l IH]; intros g Hn Hf Hb Ha.
  - exists g. split; [reflexivity|]. split; [exact Hb|]. split; [intros c []|auto].
  - inversion Hn as [|? ? N1 N2]; subst. cbn [each_cp].
    destruct (Hf c g (or_introl eq_refl) Hb (Ha c (or_introl eq_refl))) as [g1 [ch [F1 [F2 [F3 F4]]]]]. rewrite F1. cbn [andthen].
    destruct (IH g1 N2) as [g' [G1 [G2 [G3 G4]]]].
    + intros d g0 Hd. apply Hf. right. exact Hd.
    + exact F2.
    + intros d Hd. rewrite F3. destruct (cps_eqb d c) eqn:Ed; [apply cps_eqb_eq in Ed; subst; contradiction|]. apply Ha. right. exact Hd.
    + exists g'. split; [exact G1|]. split; [exact G2|]. split.
      * intros d [Hd|Hd]; [|apply G3; exact Hd]. subst d. exists ch. split; [|exact F4].
        rewrite G4 by exact N1. rewrite F3, cps_eqb_refl. reflexivity.
      * intros d Hd. rewrite G4 by (intro; apply Hd; right; auto). rewrite F3.
        destruct (cps_eqb d c) eqn:Ed; auto. apply cps_eqb_eq in Ed. subst. exfalso. apply Hd. left. reflexivity.
Qed.

(** ** References of the result *)
Lemma add_references_ok : forall l m, NoDup (dkeys (rm_refs m)) ->
  exists m', add_references m l = Ok m' /\ ref_values m' = ref_values m ++ l /\ NoDup (dkeys (rm_refs m')).
Proof.
  induction l as [|v l IH]; intros m Hm; cbn [add_references].
  - exists m. rewrite app_nil_r. auto.
  - unfold rm_add. pose proof (next_free_total (rm_refs m) (rm_next m)) as Ht.
    destruct (next_free (S (length (rm_refs m))) (rm_refs m) (rm_next m)) as [z|] eqn:E; [|congruence].
    apply next_free_some in E. destruct E as [_ [Hz _]].
    assert (Hd : forall d k (r : reference), dget String.eqb k d = None -> dset String.eqb k r d = d ++ [(k, r)]).
    { clear. induction d as [|[k' r'] d IH]; intros k r H; [reflexivity|]. cbn in *. destruct (String.eqb k k'); [discriminate|].
      rewrite IH by exact H. reflexivity. }
    destruct (IH (mkRefman (dset String.eqb (str_Z z) (mkRef v None) (rm_refs m)) z)) as [m' [H1 [H2 H3]]].
    + cbn. apply (dset_NoDup _ string_eqb_iff). exact Hm.
    + exists m'. split; [exact H1|]. split; [|exact H3]. rewrite H2. unfold ref_values. cbn [rm_refs].
      rewrite (Hd _ _ _ Hz), map_app, <- app_assoc. reflexivity.
Qed.
Lemma add_references_run : forall l g m, lgr_reachable g -> add_references (lg_refs g) l = Ok m -> lgr_reachable (set_refs g m).
Proof.
  induction l as [|v l IH]; intros g m Hg H; cbn [add_references] in H.
  - injection H as H. subst m. destruct g; exact Hg.
  - destruct (rm_add (lg_refs g) v None None) as [m1 [id|e]] eqn:E; [|discriminate].
    pose proof (lgr_reachable_step g (LAddReference v None None) Hg) as Hs.
    unfold lgr_step, lgr_add_reference in Hs. rewrite E in Hs. cbn [fst] in Hs.
    specialize (IH _ m Hs H). destruct g; exact IH.
Qed.
Lemma start_ok : forall l, exists m, add_references empty_refman l = Ok m /\ ref_values m = l /\
  building m (set_refs (new_lgr None false) m).
Proof.
  intro l. destruct (add_references_ok l empty_refman) as [m [H1 [H2 _]]]; [constructor|].
  exists m. split; [exact H1|]. split; [exact H2|]. split; [|split; reflexivity].
  apply (add_references_run l (new_lgr None false) m); [|exact H1]. exists None, false, []. reflexivity.
Qed.

(** ** Inputs *)
Lemma expand_keeps_rest : forall g, let g' := fst (lgr_expand_ranges g) in lgr_reachable g -> lgr_reachable g'.
Proof.
  intros g g' H. pose proof (lgr_reachable_step g LExpandRanges H) as Hs. unfold lgr_step in Hs. unfold g'.
  destruct (lgr_expand_ranges g). exact Hs.
Qed.

Definition spelled_out (g g' : lgr) : Prop :=
  lgr_reachable g' /\ rep_ranges (lg_rep g') = [] /\ (forall c, lk (lg_rep g') c = option_map single (lk (lg_rep g) c)) /\
  lg_tags g' = lg_tags g /\ lg_refs g' = lg_refs g /\ lg_types g' = lg_types g /\
  NoDup (cps_of g') /\ (forall c, In c (cps_of g') <-> lk (lg_rep g) c <> None) /\
  (forall c ch, lk (lg_rep g) c = Some ch -> lgr_get_char g' c = Ok (single ch)).
Lemma lk_nonempty : forall r c, lk r c <> None -> c <> [].
Proof. intros r c H E. subst. apply H. reflexivity. Qed.
Lemma expanded_ok : forall g, tidy g -> exists g', lgr_expand_ranges g = (g', Ok tt) /\ spelled_out g g'.
Proof.
  intros g Ht. pose proof (expand_ranges_spec g Ht) as Hs. pose proof (expand_keeps_rest g (tidy_reachable g Ht)) as Hr.
  destruct (lgr_expand_ranges g) as [g' x]. cbn [fst] in Hr. destruct Hs as [Hx [H1 [H2 [H3 [H4 H5]]]]]. subst x.
  exists g'. split; [reflexivity|]. pose proof (lgr_reachable_wf g' Hr) as Hwf.
  assert (Hl : forall c, lk (lg_rep g') c = option_map single (lk (lg_rep g) c)) by (intro c; rewrite <- !lookup_lk; apply H2).
  destruct (iter_general _ Hwf) as [_ [Hnd [Hsub Hnr]]].
  unfold spelled_out. do 6 (split; [first [exact Hr|exact H1|exact Hl|assumption]|]). split; [exact Hnd|]. split.
  - intro c. unfold cps_of. rewrite in_map_iff. split.
    + intros [ch [E Hi]]. apply Hsub in Hi. apply (in_all_chars_lk _ _ Hwf) in Hi. rewrite E, Hl in Hi.
      destruct (lk (lg_rep g) c); [discriminate|discriminate Hi].
    + intro H. destruct (lk (lg_rep g) c) as [ch|] eqn:E; [|congruence]. exists (single ch). split; [apply (lk_cp _ _ _ E)|].
      apply Hnr; [|unfold is_range, single; cbn; destruct (ch_kind ch); reflexivity].
      apply in_all_chars_lk; [exact Hwf|]. change (ch_cp (single ch)) with (ch_cp ch). rewrite (lk_cp _ _ _ E), Hl, E. reflexivity.
  - intros c ch E. unfold lgr_get_char.
    assert (Hp : lk (lg_rep g') c <> None) by (rewrite Hl, E; discriminate).
    rewrite (accepting_convert g' c (reachable_accepting _ Hr) (lk_nonempty _ _ Hp) Hp). cbn [bind].
    rewrite get_char_lk by (apply (lk_nonempty _ _ Hp)). rewrite Hl, E. reflexivity.
Qed.

Lemma perm_In : forall A (f : list A -> list A), (forall l, Permutation (f l) l) -> forall l x, In x (f l) <-> In x l.
Proof. intros A f H l x. split; apply Permutation_in; [apply H|apply Permutation_sym; apply H]. Qed.
Lemma perm_NoDup : forall A (f : list A -> list A), (forall l, Permutation (f l) l) -> forall l, NoDup l -> NoDup (f l).
Proof. intros A f H l Hn. eapply Permutation_NoDup; [apply Permutation_sym; apply H|exact Hn]. Qed.

Lemma orderly_lk : forall g c ch, orderly g -> lk (lg_rep g) c = Some ch -> orderly_char ch.
Proof. intros g c ch H E. apply (H c). rewrite lookup_lk. exact E. Qed.
Lemma ord_unref_In : forall o l u, permutes o -> (In u (map unreferenced (ord_variants o l)) <-> In u (map unreferenced l)).
Proof.
  intros o l u [_ [H _]]. rewrite !in_map_iff. split; intros [v [H1 H2]]; exists v; split; auto; apply (perm_In _ _ H); auto.
Qed.

Section Repertoires.
  Variable o : orders.
  Hypothesis Ho : permutes o.
  Variables g1 g2 g1' g2' : lgr.
  Hypothesis R1 : lgr_reachable g1.
  Hypothesis R2 : lgr_reachable g2.
  Hypothesis O1 : orderly g1.
  Hypothesis O2 : orderly g2.
  Hypothesis S1 : spelled_out g1 g1'.
  Hypothesis S2 : spelled_out g2 g2'.
  Variable R : refman.

  Definition both_union (a b : char) (c : cps) (ch : char) : Prop :=
    entry_is ch c (choose_comment (ch_comment a) (ch_comment b))
      (ord_names o (set_union String.eqb (ch_tags a) (ch_tags b))) None None
      (set_union variant_eqb (get_variants a) (get_variants b)).
  Definition both_inter (a b : char) (c : cps) (ch : char) : Prop :=
    entry_is ch c (choose_comment (ch_comment a) (ch_comment b))
      (ord_names o (set_inter String.eqb (ch_tags a) (ch_tags b))) None None
      (set_inter variant_eqb (map bare (get_variants a)) (map bare (get_variants b))).

  Let wf1 := lgr_reachable_wf g1 R1.
  Let wf2 := lgr_reachable_wf g2 R2.

  Lemma entry_is_ord : forall ch c cm tg w nw vs, entry_is ch c cm tg w nw (ord_variants o vs) -> entry_is ch c cm tg w nw vs.
  Proof.
    intros ch c cm tg w nw vs [H1 [H2 [H3 [H4 [H5 [H6 [H7 H8]]]]]]]. unfold entry_is.
    repeat (split; [assumption|]). intro u. rewrite H8. apply ord_unref_In. exact Ho.
  Qed.
  Lemma union_both_ok : forall c g a b, lk (lg_rep g1) c = Some a -> lk (lg_rep g2) c = Some b ->
    building R g -> lk (lg_rep g) c = None ->
    exists g' ch, with_chars g1' g2' (union_char o) g c = (g', Ok tt) /\ building R g' /\
      (forall x, lk (lg_rep g') x = if cps_eqb x c then Some ch else lk (lg_rep g) x) /\ both_union a b c ch.
  Proof.
    intros c g a b Ha Hb Hg Hc. unfold with_chars.
    destruct S1 as [_ [_ [_ [_ [_ [_ [_ [_ G1]]]]]]]]. destruct S2 as [_ [_ [_ [_ [_ [_ [_ [_ G2]]]]]]]].
    rewrite (G1 _ _ Ha), (G2 _ _ Hb). unfold union_char.
    change (ch_cp (single a)) with (ch_cp a). rewrite (lk_cp _ _ _ Ha).
    change (ch_comment (single a)) with (ch_comment a). change (ch_comment (single b)) with (ch_comment b).
    change (ch_tags (single a)) with (ch_tags a). change (ch_tags (single b)) with (ch_tags b).
    change (get_variants (single a)) with (get_variants a). change (get_variants (single b)) with (get_variants b).
    destruct (orderly_lk _ _ _ O1 Ha) as [A1 [A2 [_ A4]]]. destruct (orderly_lk _ _ _ O2 Hb) as [B1 [B2 [_ B4]]].
    rewrite (lk_cp _ _ _ Ha) in A2. rewrite (lk_cp _ _ _ Hb) in B2.
    pose proof (lk_wf _ _ _ wf1 Ha) as Wa. pose proof (lk_wf _ _ _ wf2 Hb) as Wb.
    destruct (union_variants (get_variants a) (get_variants b) (get_variants_NoDup a Wa) (get_variants_NoDup b Wb)) as [U1 U2].
    destruct Ho as [_ [Pv [Pn _]]].
    destruct (add_entry_ok R g c (choose_comment (ch_comment a) (ch_comment b))
       (ord_names o (set_union String.eqb (ch_tags a) (ch_tags b))) None None
       (ord_variants o (set_union variant_eqb (get_variants a) (get_variants b)))) as [g' [ch [H1 [H2 [H3 H4]]]]]; auto.
    - apply (lk_nonempty (lg_rep g1)). congruence.
    - apply (perm_NoDup _ _ Pn). apply (set_union_NoDup _ string_eqb_iff).
    - intro Hl. rewrite (A2 Hl), (B2 Hl). cbn. apply Permutation_nil. apply Permutation_sym. apply (Pn []).
    - left. reflexivity.
    - eapply Permutation_NoDup; [apply Permutation_map; apply Permutation_sym; apply Pv|exact U1].
    - intros v Hv. apply (proj1 (perm_In _ _ Pv _ _)) in Hv. apply U2 in Hv. destruct Hv as [Hv|[Hv _]].
      + split; [apply (variant_cp_nonempty a v Wa Hv)|apply A4; exact Hv].
      + split; [apply (variant_cp_nonempty b v Wb Hv)|apply B4; exact Hv].
    - exists g', ch. split; [exact H1|]. split; [exact H2|]. split; [exact H3|]. apply entry_is_ord. exact H4.
  Qed.
  Lemma inter_both_ok : forall c g a b, lk (lg_rep g1) c = Some a -> lk (lg_rep g2) c = Some b ->
    building R g -> lk (lg_rep g) c = None ->
    exists g' ch, with_chars g1' g2' (intersect_char o) g c = (g', Ok tt) /\ building R g' /\
      (forall x, lk (lg_rep g') x = if cps_eqb x c then Some ch else lk (lg_rep g) x) /\ both_inter a b c ch.
  Proof.
    intros c g a b Ha Hb Hg Hc. unfold with_chars.
    destruct S1 as [_ [_ [_ [_ [_ [_ [_ [_ G1]]]]]]]]. destruct S2 as [_ [_ [_ [_ [_ [_ [_ [_ G2]]]]]]]].
    rewrite (G1 _ _ Ha), (G2 _ _ Hb). unfold intersect_char.
    change (ch_cp (single a)) with (ch_cp a). rewrite (lk_cp _ _ _ Ha).
    change (ch_comment (single a)) with (ch_comment a). change (ch_comment (single b)) with (ch_comment b).
    change (ch_tags (single a)) with (ch_tags a). change (ch_tags (single b)) with (ch_tags b).
    change (get_variants (single a)) with (get_variants a). change (get_variants (single b)) with (get_variants b).
    destruct (orderly_lk _ _ _ O1 Ha) as [A1 [A2 [_ A4]]].
    rewrite (lk_cp _ _ _ Ha) in A2.
    pose proof (lk_wf _ _ _ wf1 Ha) as Wa. pose proof (lk_wf _ _ _ wf2 Hb) as Wb.
    destruct (inter_variants (get_variants a) (get_variants b) (get_variants_NoDup a Wa) (get_variants_NoDup b Wb)) as [U1 U2].
    destruct Ho as [_ [Pv [Pn _]]].
    destruct (add_entry_ok R g c (choose_comment (ch_comment a) (ch_comment b))
       (ord_names o (set_inter String.eqb (ch_tags a) (ch_tags b))) None None
       (ord_variants o (set_inter variant_eqb (map bare (get_variants a)) (map bare (get_variants b))))) as [g' [ch [H1 [H2 [H3 H4]]]]]; auto.
    - apply (lk_nonempty (lg_rep g1)). congruence.
    - apply (perm_NoDup _ _ Pn). apply (set_inter_NoDup _ string_eqb_iff).
    - intro Hl. rewrite (A2 Hl). cbn. apply Permutation_nil. apply Permutation_sym. apply (Pn []).
    - left. reflexivity.
    - eapply Permutation_NoDup; [apply Permutation_map; apply Permutation_sym; apply Pv|exact U1].
    - intros v Hv. apply (proj1 (perm_In _ _ Pv _ _)) in Hv. apply U2 in Hv. destruct Hv as [u [Hu [_ Hv]]]. subst v.
      split; [exact (variant_cp_nonempty a u Wa Hu)|exact (A4 u Hu)].
    - exists g', ch. split; [exact H1|]. split; [exact H2|]. split; [exact H3|]. apply entry_is_ord. exact H4.
  Qed.
End Repertoires.

Section Copies.
  Variables g1 g1' : lgr.
  Hypothesis R1 : lgr_reachable g1.
  Hypothesis O1 : orderly g1.
  Hypothesis S1 : spelled_out g1 g1'.
  Variable R : refman.
  Lemma copy_ok : forall (full : bool) c g a, lk (lg_rep g1) c = Some a -> building R g -> lk (lg_rep g) c = None ->
    exists g' ch, with_char g1' (if full then copy_second else copy_first) g c = (g', Ok tt) /\ building R g' /\
      (forall x, lk (lg_rep g') x = if cps_eqb x c then Some ch else lk (lg_rep g) x) /\
      entry_is ch c (ch_comment a) (ch_tags a) (ch_when a) (ch_not_when a) (if full then get_variants a else []).
  Proof.
    intros full c g a Ha Hg Hc. unfold with_char.
    destruct S1 as [_ [_ [_ [_ [_ [_ [_ [_ G1]]]]]]]]. rewrite (G1 _ _ Ha).
    destruct (orderly_lk _ _ _ O1 Ha) as [A1 [A2 [A3 A4]]]. rewrite (lk_cp _ _ _ Ha) in A2.
    pose proof (lk_wf _ _ _ (lgr_reachable_wf g1 R1) Ha) as Wa.
    assert (Hne : c <> []) by (apply (lk_nonempty (lg_rep g1)); congruence).
    destruct (add_entry_ok R g c (ch_comment a) (ch_tags a) (ch_when a) (ch_not_when a) (if full then get_variants a else []))
      as [g' [ch H]]; auto.
    - destruct full; [apply get_variants_NoDup; exact Wa|constructor].
    - intros v Hv. destruct full; [|destruct Hv]. split; [apply (variant_cp_nonempty a v Wa Hv)|apply A4; exact Hv].
    - exists g', ch. destruct full; cbn beta iota; [unfold copy_second|unfold copy_first];
      change (ch_cp (single a)) with (ch_cp a); rewrite (lk_cp _ _ _ Ha); exact H.
  Qed.
End Copies.

Lemma not_none : forall A (x : option A), ~ x <> None <-> x = None.
Proof. intros A [a|]; split; intro H; try congruence. exfalso. apply H. discriminate. Qed.

Lemma union_repertoire_ok : forall o g1 g2 g1' g2' R g, permutes o ->
  lgr_reachable g1 -> lgr_reachable g2 -> orderly g1 -> orderly g2 -> spelled_out g1 g1' -> spelled_out g2 g2' ->
  building R g -> (forall c, lk (lg_rep g) c = None) ->
  exists g', union_repertoire o g1' g2' g = (g', Ok tt) /\ building R g' /\
    forall c, match lk (lg_rep g1) c, lk (lg_rep g2) c with
              | None, None => lk (lg_rep g') c = None
              | Some a, Some b => exists ch, lk (lg_rep g') c = Some ch /\ both_union o a b c ch
              | Some a, None => exists ch, lk (lg_rep g') c = Some ch /\
                  entry_is ch c (ch_comment a) (ch_tags a) (ch_when a) (ch_not_when a) []
              | None, Some b => exists ch, lk (lg_rep g') c = Some ch /\
                  entry_is ch c (ch_comment b) (ch_tags b) (ch_when b) (ch_not_when b) (get_variants b)
              end.
Proof.
  intros o g1 g2 g1' g2' R g Ho R1 R2 O1 O2 S1 S2 Hg Hempty. unfold union_repertoire.
  pose proof S1 as [_ [_ [_ [_ [_ [_ [_ [I1 _]]]]]]]]. pose proof S2 as [_ [_ [_ [_ [_ [_ [_ [I2 _]]]]]]]].
  pose proof Ho as [Pc _].
  set (c1 := cps_of g1') in *. set (c2 := cps_of g2') in *.
  assert (M1 : forall c, In c (ord_cps o (set_inter cps_eqb c1 c2)) <-> lk (lg_rep g1) c <> None /\ lk (lg_rep g2) c <> None).
  { intro c. rewrite (perm_In _ _ Pc), (set_inter_In _ cps_eqb_eq), I1, I2. tauto. }
  assert (M2 : forall c, In c (ord_cps o (set_diff cps_eqb c1 c2)) <-> lk (lg_rep g1) c <> None /\ lk (lg_rep g2) c = None).
  { intro c. rewrite (perm_In _ _ Pc), (set_diff_In _ cps_eqb_eq), I1, I2. rewrite not_none. tauto. }
  assert (M3 : forall c, In c (ord_cps o (set_diff cps_eqb c2 c1)) <-> lk (lg_rep g2) c <> None /\ lk (lg_rep g1) c = None).
  { intro c. rewrite (perm_In _ _ Pc), (set_diff_In _ cps_eqb_eq), I1, I2. rewrite not_none. tauto. }
  destruct (each_cp_ok (fun c ch => forall a b, lk (lg_rep g1) c = Some a -> lk (lg_rep g2) c = Some b -> both_union o a b c ch)
    (with_chars g1' g2' (union_char o)) R (ord_cps o (set_inter cps_eqb c1 c2)) g) as [ga [A1 [A2 [A3 A4]]]].
  { apply (perm_NoDup _ _ Pc). apply (set_inter_NoDup _ cps_eqb_eq). }
  { intros c g0 Hc Hb Hn. apply M1 in Hc. destruct Hc as [Hc1 Hc2].
    destruct (lk (lg_rep g1) c) as [a|] eqn:Ea; [|congruence]. destruct (lk (lg_rep g2) c) as [b|] eqn:Eb; [|congruence].
    destruct (union_both_ok o Ho g1 g2 g1' g2' R1 R2 O1 O2 S1 S2 R c g0 a b Ea Eb Hb Hn) as [g' [ch [H1 [H2 [H3 H4]]]]].
    exists g', ch. split; [exact H1|]. split; [exact H2|]. split; [exact H3|]. intros a0 b0 E1 E2. injection E1 as <-. injection E2 as <-. exact H4. }
  { exact Hg. } { intros c _. apply Hempty. }
  rewrite A1. cbn [andthen].
  destruct (each_cp_ok (fun c ch => forall a, lk (lg_rep g1) c = Some a -> entry_is ch c (ch_comment a) (ch_tags a) (ch_when a) (ch_not_when a) [])
    (with_char g1' copy_first) R (ord_cps o (set_diff cps_eqb c1 c2)) ga) as [gb [B1 [B2 [B3 B4]]]].
  { apply (perm_NoDup _ _ Pc). apply (set_diff_NoDup _ cps_eqb_eq). }
  { intros c g0 Hc Hb Hn. apply M2 in Hc. destruct Hc as [Hc1 Hc2].
    destruct (lk (lg_rep g1) c) as [a|] eqn:Ea; [|congruence].
    destruct (copy_ok g1 g1' R1 O1 S1 R false c g0 a Ea Hb Hn) as [g' [ch [H1 [H2 [H3 H4]]]]].
    exists g', ch. split; [exact H1|]. split; [exact H2|]. split; [exact H3|]. intros a0 E1. injection E1 as <-. exact H4. }
  { exact A2. } { intros c Hc. rewrite A4; [apply Hempty|]. intro H. apply M1 in H. apply M2 in Hc. destruct H, Hc; congruence. }
  rewrite B1. cbn [andthen].
  destruct (each_cp_ok (fun c ch => forall a, lk (lg_rep g2) c = Some a -> entry_is ch c (ch_comment a) (ch_tags a) (ch_when a) (ch_not_when a) (get_variants a))
    (with_char g2' copy_second) R (ord_cps o (set_diff cps_eqb c2 c1)) gb) as [gc [C1 [C2 [C3 C4]]]].
  { apply (perm_NoDup _ _ Pc). apply (set_diff_NoDup _ cps_eqb_eq). }
  { intros c g0 Hc Hb Hn. apply M3 in Hc. destruct Hc as [Hc1 Hc2].
    destruct (lk (lg_rep g2) c) as [a|] eqn:Ea; [|congruence].
    destruct (copy_ok g2 g2' R2 O2 S2 R true c g0 a Ea Hb Hn) as [g' [ch [H1 [H2 [H3 H4]]]]].
    exists g', ch. split; [exact H1|]. split; [exact H2|]. split; [exact H3|]. intros a0 E1. injection E1 as <-. exact H4. }
  { exact B2. }
  { intros c Hc. apply M3 in Hc. rewrite B4 by (intro H; apply M2 in H; destruct H, Hc; congruence).
    rewrite A4 by (intro H; apply M1 in H; destruct H, Hc; congruence). apply Hempty. }
  exists gc. split; [exact C1|]. split; [exact C2|]. intro c.
  destruct (lk (lg_rep g1) c) as [a|] eqn:Ea, (lk (lg_rep g2) c) as [b|] eqn:Eb.
  - destruct (A3 c) as [ch [H1 H2]]; [apply M1; split; congruence|]. exists ch. split; [|apply H2; auto].
    rewrite C4 by (intro H; apply M3 in H; destruct H; congruence).
    rewrite B4 by (intro H; apply M2 in H; destruct H; congruence). exact H1.
  - destruct (B3 c) as [ch [H1 H2]]; [apply M2; split; congruence|]. exists ch. split; [|apply H2; auto].
    rewrite C4 by (intro H; apply M3 in H; destruct H; congruence). exact H1.
  - destruct (C3 c) as [ch [H1 H2]]; [apply M3; split; congruence|]. exists ch. split; [exact H1|apply H2; auto].
  - rewrite C4 by (intro H; apply M3 in H; destruct H; congruence).
    rewrite B4 by (intro H; apply M2 in H; destruct H; congruence).
    rewrite A4 by (intro H; apply M1 in H; destruct H; congruence). apply Hempty.
Qed.

Lemma intersect_repertoire_ok : forall o g1 g2 g1' g2' R g, permutes o ->
  lgr_reachable g1 -> lgr_reachable g2 -> orderly g1 -> orderly g2 -> spelled_out g1 g1' -> spelled_out g2 g2' ->
  building R g -> (forall c, lk (lg_rep g) c = None) ->
  exists g', intersect_repertoire o g1' g2' g = (g', Ok tt) /\ building R g' /\
    forall c, match lk (lg_rep g1) c, lk (lg_rep g2) c with
              | Some a, Some b => exists ch, lk (lg_rep g') c = Some ch /\ both_inter o a b c ch
              | _, _ => lk (lg_rep g') c = None
              end.
Proof.
  intros o g1 g2 g1' g2' R g Ho R1 R2 O1 O2 S1 S2 Hg Hempty. unfold intersect_repertoire.
  pose proof S1 as [_ [_ [_ [_ [_ [_ [_ [I1 _]]]]]]]]. pose proof S2 as [_ [_ [_ [_ [_ [_ [_ [I2 _]]]]]]]].
  pose proof Ho as [Pc _].
  set (c1 := cps_of g1') in *. set (c2 := cps_of g2') in *.
  assert (M1 : forall c, In c (ord_cps o (set_inter cps_eqb c1 c2)) <-> lk (lg_rep g1) c <> None /\ lk (lg_rep g2) c <> None).
  { intro c. rewrite (perm_In _ _ Pc), (set_inter_In _ cps_eqb_eq), I1, I2. tauto. }
  destruct (each_cp_ok (fun c ch => forall a b, lk (lg_rep g1) c = Some a -> lk (lg_rep g2) c = Some b -> both_inter o a b c ch)
    (with_chars g1' g2' (intersect_char o)) R (ord_cps o (set_inter cps_eqb c1 c2)) g) as [ga [A1 [A2 [A3 A4]]]].
  { apply (perm_NoDup _ _ Pc). apply (set_inter_NoDup _ cps_eqb_eq). }
  { intros c g0 Hc Hb Hn. apply M1 in Hc. destruct Hc as [Hc1 Hc2].
    destruct (lk (lg_rep g1) c) as [a|] eqn:Ea; [|congruence]. destruct (lk (lg_rep g2) c) as [b|] eqn:Eb; [|congruence].
    destruct (inter_both_ok o Ho g1 g2 g1' g2' R1 R2 O1 S1 S2 R c g0 a b Ea Eb Hb Hn) as [g' [ch [H1 [H2 [H3 H4]]]]].
    exists g', ch. split; [exact H1|]. split; [exact H2|]. split; [exact H3|]. intros a0 b0 E1 E2. injection E1 as <-. injection E2 as <-. exact H4. }
  { exact Hg. } { intros c _. apply Hempty. }
  exists ga. split; [exact A1|]. split; [exact A2|]. intro c.
  destruct (lk (lg_rep g1) c) as [a|] eqn:Ea, (lk (lg_rep g2) c) as [b|] eqn:Eb.
  - destruct (A3 c) as [ch [H1 H2]]; [apply M1; split; congruence|]. exists ch. auto.
  - rewrite A4 by (intro H; apply M1 in H; destruct H; congruence). apply Hempty.
  - rewrite A4 by (intro H; apply M1 in H; destruct H; congruence). apply Hempty.
  - rewrite A4 by (intro H; apply M1 in H; destruct H; congruence). apply Hempty.
Qed.
