(** Variants held by a character. *)
From Verif Require Import Base BaseFacts CharModel RepSpec RepProofs.

Lemma get_variants_In : forall c v, wf_char c ->
  (In v (get_variants c) <-> exists l, In (v_cp v, l) (ch_variants c) /\ In v l).
Proof.
  intros c v [[Hnd Hv] _]. unfold get_variants. rewrite in_flat_map. split.
  - intros [k [H1 H2]]. destruct (dget cps_eqb k (ch_variants c)) as [l|] eqn:E; [|contradiction].
    apply (dget_In _ cps_eqb_eq) in E. destruct (Hv _ _ E) as [_ [_ [H3 _]]].
    rewrite (H3 v H2). eauto.
  - intros [l [H1 H2]]. exists (v_cp v). split.
    + apply isort_In. apply in_map_iff. exists (v_cp v, l). auto.
    + rewrite (In_dget _ cps_eqb_eq) with (v := l); auto.
Qed.

Lemma NoDup_flat_map_disjoint : forall A B (f : A -> list B) l,
  NoDup l -> (forall a, In a l -> NoDup (f a)) ->
  (forall a b x, In a l -> In b l -> In x (f a) -> In x (f b) -> a = b) ->
  NoDup (flat_map f l).
Proof.
  intros A B f l Hnd Hf Hd. induction l as [|a l IH]; simpl; [constructor|].
  inversion Hnd as [|? ? Hni Hnd']; subst. apply NoDup_app_iff. repeat split.
  - apply Hf. left. reflexivity.
  - apply IH; auto.
    + intros b Hb. apply Hf. right. exact Hb.
    + intros b1 b2 x H1 H2. apply Hd; right; assumption.
  - intros x Hx Hx'. apply in_flat_map in Hx'. destruct Hx' as [b [Hb1 Hb2]].
    assert (a = b). { apply (Hd a b x); auto. left. reflexivity. right. exact Hb1. }
    subst. contradiction.
Qed.

Lemma map_flat_map : forall A B C (g : B -> C) (f : A -> list B) l,
  map g (flat_map f l) = flat_map (fun a => map g (f a)) l.
Proof.
  induction l as [|a l IH]; simpl; auto. rewrite map_app, IH. reflexivity.
Qed.

Lemma NoDup_map_comp : forall A B C (f : A -> B) (g : B -> C) l,
  NoDup (map (fun x => g (f x)) l) -> NoDup (map f l).
Proof.
  induction l as [|a l IH]; simpl; intro H; [constructor|].
  inversion H as [|? ? Hni Hnd]; subst. constructor; auto.
  intro Hc. apply Hni. apply in_map_iff in Hc. destruct Hc as [b [Hb1 Hb2]].
  rewrite <- Hb1. apply in_map_iff. exists b. auto.
Qed.

Lemma get_variants_NoDup : forall c, wf_char c -> NoDup (map vkey (get_variants c)).
Proof.
  intros c [[Hnd Hv] _]. unfold get_variants. rewrite map_flat_map.
  apply NoDup_flat_map_disjoint.
  - apply isort_NoDup. exact Hnd.
  - intros k Hk. destruct (dget cps_eqb k (ch_variants c)) as [l|] eqn:E; [|constructor].
    apply (dget_In _ cps_eqb_eq) in E. destruct (Hv _ _ E) as [_ [_ [_ H]]].
    apply (NoDup_map_comp _ _ _ vkey (fun p => (snd (fst p), snd p))). exact H.
  - intros k1 k2 x _ _ H1 H2.
    destruct (dget cps_eqb k1 (ch_variants c)) as [l1|] eqn:E1; [|contradiction].
    destruct (dget cps_eqb k2 (ch_variants c)) as [l2|] eqn:E2; [|contradiction].
    apply (dget_In _ cps_eqb_eq) in E1. apply (dget_In _ cps_eqb_eq) in E2.
    destruct (Hv _ _ E1) as [_ [_ [Ha _]]]. destruct (Hv _ _ E2) as [_ [_ [Hb _]]].
    apply in_map_iff in H1. destruct H1 as [v1 [Hv1 Hv1']].
    apply in_map_iff in H2. destruct H2 as [v2 [Hv2 Hv2']].
    rewrite <- (Ha v1 Hv1'), <- (Hb v2 Hv2'). unfold vkey in *. congruence.
Qed.

Lemma StronglySorted_app : forall A (R : A -> A -> Prop) l1 l2,
  StronglySorted R l1 -> StronglySorted R l2 ->
  (forall a b, In a l1 -> In b l2 -> R a b) -> StronglySorted R (l1 ++ l2).
Proof.
  intros A R l1 l2 H1 H2 H. induction l1 as [|a l1 IH]; simpl; auto.
  inversion H1 as [|? ? Hs Hf]; subst. constructor.
  - apply IH; auto. intros x y Hx Hy. apply H; auto. right. exact Hx.
  - rewrite Forall_forall in *. intros x Hx. apply in_app_iff in Hx. destruct Hx as [Hx|Hx]; auto.
    apply H; auto. left. reflexivity.
Qed.

Lemma StronglySorted_refl_all : forall A (R : A -> A -> Prop) (l : list A),
  (forall a b, In a l -> In b l -> R a b) -> StronglySorted R l.
Proof.
  induction l as [|a l IH]; intro H; constructor.
  - apply IH. intros x y Hx Hy. apply H; right; assumption.
  - apply Forall_forall. intros x Hx. apply H; [left; reflexivity|right; exact Hx].
Qed.

Lemma get_variants_sorted : forall c, wf_char c ->
  StronglySorted (fun a b => cps_leb (v_cp a) (v_cp b) = true) (get_variants c).
Proof.
  intros c [[Hnd Hv] _]. unfold get_variants.
  pose proof (isort_sorted cps_leb cps_leb_total cps_leb_trans (dkeys (ch_variants c))) as Hs.
  set (ks := isort cps_leb (dkeys (ch_variants c))) in *. clearbody ks.
  assert (Hg : forall k v, In v (match dget cps_eqb k (ch_variants c) with Some l => l | None => [] end) -> v_cp v = k).
  { intros k v H. destruct (dget cps_eqb k (ch_variants c)) as [l|] eqn:E; [|contradiction].
    apply (dget_In _ cps_eqb_eq) in E. destruct (Hv _ _ E) as [_ [_ [Ha _]]]. auto. }
  induction ks as [|k ks IH]; simpl; [constructor|].
  inversion Hs as [|? ? Hs' Hf]; subst. apply StronglySorted_app; auto.
  - apply StronglySorted_refl_all. intros a b Ha Hb.
    rewrite (Hg k a Ha), (Hg k b Hb). apply cps_leb_refl.
  - intros a b Ha Hb. rewrite (Hg k a Ha). apply in_flat_map in Hb.
    destruct Hb as [k' [Hk' Hb]]. rewrite (Hg k' b Hb).
    rewrite Forall_forall in Hf. apply Hf. exact Hk'.
Qed.

Lemma NoDup_map_inv' : forall A B (f : A -> B) l, NoDup (map f l) -> NoDup l.
Proof. intros A B f l. apply NoDup_map_inv. Qed.

Lemma memb_variant_key : forall v l, memb variant_eqb v l = true <-> In (vkey v) (map vkey l).
Proof.
  intros v l. unfold memb. rewrite existsb_exists, in_map_iff. split.
  - intros [w [H1 H2]]. apply variant_eqb_iff in H2. exists w. split; auto.
    unfold vkey. destruct H2 as [Ha [Hb Hc]]. congruence.
  - intros [w [H1 H2]]. exists w. split; auto. apply variant_eqb_iff.
    unfold vkey in H1. injection H1 as Ha Hb Hc. auto.
Qed.

(** Success/failure of add_variant. *)
Lemma add_variant_cases : forall c v, wf_char c -> is_range c = false -> v_cp v <> [] ->
  (In (vkey v) (map vkey (get_variants c)) /\
   char_add_variant c v = Raise (VariantAlreadyExists (ch_cp c) (v_cp v)))
  \/
  (~ In (vkey v) (map vkey (get_variants c)) /\
   exists c', char_add_variant c v = Ok c' /\
     (forall w, In w (get_variants c') <-> w = v \/ In w (get_variants c))).
Proof.
  intros c v Hwf Hr Hne.
  assert (Hkey : In (vkey v) (map vkey (get_variants c)) <->
          exists l, dget cps_eqb (v_cp v) (ch_variants c) = Some l /\ memb variant_eqb v l = true).
  { split.
    - intro H. apply in_map_iff in H. destruct H as [w [Hw1 Hw2]].
      apply get_variants_In in Hw2; auto. destruct Hw2 as [l [Hl1 Hl2]].
      assert (Hcp : v_cp w = v_cp v) by (unfold vkey in Hw1; congruence).
      rewrite Hcp in Hl1. exists l. split.
      + apply (In_dget _ cps_eqb_eq); auto. apply Hwf.
      + apply memb_variant_key. rewrite <- Hw1. apply in_map. exact Hl2.
    - intros [l [Hl1 Hl2]]. apply memb_variant_key in Hl2. apply in_map_iff in Hl2.
      destruct Hl2 as [w [Hw1 Hw2]]. apply in_map_iff. exists w. split; auto.
      apply get_variants_In; auto. exists l. split; auto.
      assert (Hcp : v_cp w = v_cp v) by (unfold vkey in Hw1; congruence). rewrite Hcp.
      eapply dget_In; [exact cps_eqb_eq|exact Hl1]. }
  assert (Hadd : char_add_variant c v =
    match dget cps_eqb (v_cp v) (ch_variants c) with
    | Some l =>
        if memb variant_eqb v l
        then Raise (VariantAlreadyExists (ch_cp c) (v_cp v))
        else Ok (set_variants c (dset cps_eqb (v_cp v) (l ++ [v]) (ch_variants c)))
    | None => Ok (set_variants c (dset cps_eqb (v_cp v) [v] (ch_variants c)))
    end).
  { unfold char_add_variant. rewrite Hr. destruct (v_cp v); [contradiction|reflexivity]. }
  assert (Hgen : forall l, (dget cps_eqb (v_cp v) (ch_variants c) = Some l \/ (dget cps_eqb (v_cp v) (ch_variants c) = None /\ l = [])) ->
    wf_char (set_variants c (dset cps_eqb (v_cp v) (l ++ [v]) (ch_variants c))) ->
    forall w, In w (get_variants (set_variants c (dset cps_eqb (v_cp v) (l ++ [v]) (ch_variants c))))
              <-> w = v \/ In w (get_variants c)).
  { intros l Hl Hwf' w. rewrite !get_variants_In by assumption. simpl.
    destruct Hwf as [[Hnd Hv] Hk]. split.
    - intros [l' [H1 H2]]. apply in_dset' in H1; auto. destruct H1 as [[H1 H3]|[H1 H3]].
      + subst l'. apply in_app_iff in H2. destruct H2 as [H2|[H2|[]]]; auto.
        right. exists l. split; auto. rewrite H1.
        destruct Hl as [Hl|[_ Hl]]; [eapply dget_In; [exact cps_eqb_eq|exact Hl]|subst; contradiction].
      + right. eauto.
    - intros [H|[l' [H1 H2]]].
      + subst w. exists (l ++ [v]). split; [|apply in_app_iff; simpl; auto].
        eapply dget_In; [exact cps_eqb_eq|]. rewrite (dget_dset _ cps_eqb_eq), cps_eqb_refl. reflexivity.
      + destruct (cps_eqb (v_cp w) (v_cp v)) eqn:E.
        * apply cps_eqb_eq in E. exists (l ++ [v]). split.
          -- eapply dget_In; [exact cps_eqb_eq|]. rewrite (dget_dset _ cps_eqb_eq), E, cps_eqb_refl. reflexivity.
          -- apply in_app_iff. left. rewrite E in H1. apply (In_dget _ cps_eqb_eq) in H1; auto.
             destruct Hl as [Hl|[Hl _]]; congruence.
        * exists l'. split; auto. eapply dget_In; [exact cps_eqb_eq|].
          rewrite (dget_dset _ cps_eqb_eq), E. apply (In_dget _ cps_eqb_eq); auto. }
  destruct (dget cps_eqb (v_cp v) (ch_variants c)) as [l|] eqn:Ed.
  - destruct (memb variant_eqb v l) eqn:Em.
    + left. split; [apply Hkey; eauto|]. exact Hadd.
    + right. split.
      * intro H. apply Hkey in H. destruct H as [l' [H1 H2]]. congruence.
      * eexists. split; [exact Hadd|]. apply Hgen; auto.
        eapply char_add_variant_wf; [exact Hwf|exact Hadd].
  - right. split.
    + intro H. apply Hkey in H. destruct H as [l' [H1 H2]]. congruence.
    + eexists. split; [exact Hadd|]. apply (Hgen []); auto.
      simpl. eapply char_add_variant_wf; [exact Hwf|exact Hadd].
Qed.

Lemma remove1_vkey : forall v l w, NoDup (map vkey l) ->
  (In w (remove1 variant_eqb v l) <-> In w l /\ vkey w <> vkey v).
Proof.
  intros v l w Hnd. induction l as [|e l IH]; simpl; [tauto|].
  inversion Hnd as [|? ? Hni Hnd']; subst. specialize (IH Hnd').
  destruct (variant_eqb v e) eqn:E.
  - apply variant_eqb_iff in E. assert (Hk : vkey v = vkey e) by (unfold vkey; destruct E as [? [? ?]]; congruence).
    split.
    + intro H. split; auto. intro Hc. apply Hni. rewrite <- Hk, <- Hc. apply in_map. exact H.
    + intros [[H|H] H']; [subst; congruence|exact H].
  - assert (Hk : vkey v <> vkey e).
    { intro Hc. assert (variant_eqb v e = true); [|congruence]. apply variant_eqb_iff.
      unfold vkey in Hc. injection Hc as ? ? ?. auto. }
    simpl. rewrite IH. split.
    + intros [H|H]; [subst; auto|tauto].
    + intros [[H|H] H']; auto.
Qed.

(** del_variant removes exactly the designated variant. *)
Lemma del_variant_cases : forall c vcp w nw, wf_char c -> is_range c = false -> vcp <> [] ->
  exists c' b, char_del_variant c vcp w nw = Ok (c', b) /\
    (b = true <-> In (vcp, w, nw) (map vkey (get_variants c))) /\
    (b = false -> c' = c) /\
    (forall u, In u (get_variants c') <-> In u (get_variants c) /\ vkey u <> (vcp, w, nw)).
Proof.
  intros c vcp w nw Hwf Hr Hne.
  set (d := mkVariant vcp None w nw None []).
  assert (Hdel : char_del_variant c vcp w nw =
    match dget cps_eqb vcp (ch_variants c) with
    | Some l =>
        if memb variant_eqb d l
        then match remove1 variant_eqb d l with
             | [] => Ok (set_variants c (ddel cps_eqb vcp (ch_variants c)), true)
             | l' => Ok (set_variants c (dset cps_eqb vcp l' (ch_variants c)), true)
             end
        else Ok (c, false)
    | None => Ok (c, false)
    end).
  { unfold char_del_variant. rewrite Hr. destruct vcp; [contradiction|reflexivity]. }
  assert (Hnokey : (forall l, dget cps_eqb vcp (ch_variants c) = Some l -> memb variant_eqb d l = false) ->
     ~ In (vcp, w, nw) (map vkey (get_variants c))).
  { intros H Hin. apply in_map_iff in Hin. destruct Hin as [u [Hu1 Hu2]].
    apply get_variants_In in Hu2; auto. destruct Hu2 as [l [Hl1 Hl2]].
    assert (Hcp : v_cp u = vcp) by (unfold vkey in Hu1; congruence). rewrite Hcp in Hl1.
    assert (Hl : dget cps_eqb vcp (ch_variants c) = Some l) by (apply (In_dget _ cps_eqb_eq); auto; apply Hwf).
    specialize (H l Hl). assert (memb variant_eqb d l = true); [|congruence].
    apply memb_variant_key. change (vkey d) with (vcp, w, nw). rewrite <- Hu1. apply in_map. exact Hl2. }
  assert (Hsame : forall u, ~ In (vcp, w, nw) (map vkey (get_variants c)) ->
     (In u (get_variants c) <-> In u (get_variants c) /\ vkey u <> (vcp, w, nw))).
  { intros u Hn. split; [|tauto]. intro Hu. split; auto. intro Hc. apply Hn. rewrite <- Hc. apply in_map. exact Hu. }
  destruct (dget cps_eqb vcp (ch_variants c)) as [l|] eqn:Ed.
  2:{ exists c, false. split; [exact Hdel|].
      assert (Hn : ~ In (vcp, w, nw) (map vkey (get_variants c))) by (apply Hnokey; intros; discriminate).
      split; [split; [discriminate|contradiction]|]. split; auto. }
  destruct (memb variant_eqb d l) eqn:Em.
  2:{ exists c, false. split; [exact Hdel|].
      assert (Hn : ~ In (vcp, w, nw) (map vkey (get_variants c))).
      { apply Hnokey. intros l' Hl'. congruence. }
      split; [split; [discriminate|contradiction]|]. split; auto. }
  assert (Hl : In (vcp, l) (ch_variants c)) by (eapply dget_In; [exact cps_eqb_eq|exact Ed]).
  destruct Hwf as [[Hnd Hv] Hk] eqn:EHwf. clear EHwf.
  destruct (Hv _ _ Hl) as [Ha [Hb [Hc Hd]]].
  assert (Hndl : NoDup (map vkey l)).
  { apply (NoDup_map_comp _ _ _ vkey (fun p => (snd (fst p), snd p))). exact Hd. }
  assert (Hyes : In (vcp, w, nw) (map vkey (get_variants c))).
  { apply memb_variant_key in Em. apply in_map_iff in Em. destruct Em as [u [Hu1 Hu2]].
    change (vkey d) with (vcp, w, nw) in Hu1. rewrite <- Hu1. apply in_map.
    apply get_variants_In; auto. exists l. rewrite (Hc u Hu2). auto. }
  assert (Hspec : forall u vs, NoDup (dkeys vs) ->
     (forall k l', In (k, l') vs <-> (k <> vcp /\ In (k, l') (ch_variants c)) \/
                   (k = vcp /\ l' = remove1 variant_eqb d l /\ l' <> [])) ->
     wf_char (set_variants c vs) ->
     (In u (get_variants (set_variants c vs)) <-> In u (get_variants c) /\ vkey u <> (vcp, w, nw))).
  { intros u vs Hndvs Hvs Hwf'. rewrite !get_variants_In; auto. simpl. split.
    - intros [l' [H1 H2]]. apply Hvs in H1. destruct H1 as [[H1 H3]|[H1 [H3 H4]]].
      + split; [eauto|]. unfold vkey. congruence.
      + subst l'. apply remove1_vkey in H2; auto. destruct H2 as [H2 H5]. split; auto.
        exists l. rewrite H1. auto.
    - intros [[l' [H1 H2]] H3].
      destruct (cps_eq_dec (v_cp u) vcp) as [E|E].
      + assert (l' = l).
        { rewrite E in H1. apply (In_dget _ cps_eqb_eq) in H1; auto. congruence. }
        subst l'. exists (remove1 variant_eqb d l).
        assert (Hu : In u (remove1 variant_eqb d l)) by (apply remove1_vkey; auto).
        split; auto. apply Hvs. right. repeat split; auto. intro Hx. rewrite Hx in Hu. contradiction.
      + exists l'. split; auto. apply Hvs. left. auto. }
  destruct (remove1 variant_eqb d l) as [|e l'] eqn:Erm.
  - exists (set_variants c (ddel cps_eqb vcp (ch_variants c))), true. split; [exact Hdel|].
    split; [split; auto|]. split; [discriminate|].
    assert (Hwf' : wf_char (set_variants c (ddel cps_eqb vcp (ch_variants c)))).
    { eapply char_del_variant_wf; [exact Hwf|exact Hdel]. }
    intro u. apply Hspec; auto.
    + apply ddel_NoDup. exact Hnd.
    + intros k l'. split.
      * intro Hin. apply (In_dget _ cps_eqb_eq) in Hin; [|apply ddel_NoDup; exact Hnd].
        rewrite (dget_ddel _ cps_eqb_eq) in Hin by exact Hnd.
        destruct (cps_eqb k vcp) eqn:E; [discriminate|]. apply cps_eqb_neq in E. left. split; auto.
        eapply dget_In; [exact cps_eqb_eq|exact Hin].
      * intros [[H1 H2]|[_ [H2 H3]]]; [|congruence].
        eapply dget_In; [exact cps_eqb_eq|]. rewrite (dget_ddel _ cps_eqb_eq) by exact Hnd.
        apply cps_eqb_neq in H1. rewrite H1. apply (In_dget _ cps_eqb_eq); auto.
  - exists (set_variants c (dset cps_eqb vcp (e :: l') (ch_variants c))), true. split; [exact Hdel|].
    split; [split; auto|]. split; [discriminate|].
    assert (Hwf' : wf_char (set_variants c (dset cps_eqb vcp (e :: l') (ch_variants c)))).
    { eapply char_del_variant_wf; [exact Hwf|exact Hdel]. }
    intro u. apply Hspec; auto.
    + apply (dset_NoDup _ cps_eqb_eq). exact Hnd.
    + intros k l2. split.
      * intro Hin. apply in_dset' in Hin; auto. destruct Hin as [[H1 H2]|[H1 H2]]; auto.
        right. repeat split; auto. subst. discriminate.
      * intros [[H1 H2]|[H1 [H2 H3]]].
        -- eapply dget_In; [exact cps_eqb_eq|]. rewrite (dget_dset _ cps_eqb_eq).
           apply cps_eqb_neq in H1. rewrite H1. apply (In_dget _ cps_eqb_eq); auto.
        -- subst. eapply dget_In; [exact cps_eqb_eq|]. rewrite (dget_dset _ cps_eqb_eq), cps_eqb_refl. reflexivity.
Qed.

Lemma range_no_variants : forall c v vcp w nw, is_range c = true ->
  char_add_variant c v = Raise (LGRFormatException RANGE_NO_CHILD) /\
  char_del_variant c vcp w nw = Raise (LGRFormatException RANGE_NO_CHILD).
Proof. intros c v vcp w nw H. unfold char_add_variant, char_del_variant. rewrite H. auto. Qed.
