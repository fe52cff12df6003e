(** Iteration over a repertoire, ranges. *)
From Verif Require Import Base BaseFacts CharModel RepSpec RepProofs VariantProofs.

Lemma len_leb_total : forall a b, len_leb a b = true \/ len_leb b a = true.
Proof. intros a b. unfold len_leb. rewrite !Nat.leb_le. lia. Qed.
Lemma len_leb_trans : forall a b c, len_leb a b = true -> len_leb b c = true -> len_leb a c = true.
Proof. intros a b c. unfold len_leb. rewrite !Nat.leb_le. lia. Qed.
Lemma N_leb_total : forall a b, N.leb a b = true \/ N.leb b a = true.
Proof. intros a b. rewrite !N.leb_le. lia. Qed.
Lemma N_leb_trans : forall a b c, N.leb a b = true -> N.leb b c = true -> N.leb a c = true.
Proof. intros a b c. rewrite !N.leb_le. lia. Qed.

(** Strictly increasing key list. *)
Lemma sorted_keys : forall r, wf_rep r ->
  StronglySorted N.lt (isort N.leb (dkeys (rep_chars r))).
Proof.
  intros r [Hnd _].
  pose proof (isort_sorted N.leb N_leb_total N_leb_trans (dkeys (rep_chars r))) as Hs.
  pose proof (isort_NoDup N.leb _ Hnd) as Hn.
  set (ks := isort N.leb (dkeys (rep_chars r))) in *. clearbody ks.
  induction ks as [|k ks IH]; [constructor|].
  inversion Hs as [|? ? Hs' Hf]; subst. inversion Hn as [|? ? Hni Hn']; subst. constructor; auto.
  rewrite Forall_forall in *. intros x Hx. specialize (Hf x Hx). unfold le_ in Hf.
  apply N.leb_le in Hf. assert (x <> k) by congruence. lia.
Qed.

Lemma in_sorted_keys : forall r k, wf_rep r ->
  (In k (isort N.leb (dkeys (rep_chars r))) <-> bucket r k <> []).
Proof.
  intros r k Hwf. rewrite isort_In. split.
  - intro H. apply in_map_iff in H. destruct H as [[k' l] [H1 H2]]. simpl in H1. subst k'.
    rewrite (bucket_In r k l); [|apply Hwf|exact H2]. destruct Hwf as [_ [Hb _]].
    apply (Hb _ _ H2).
  - intro H. apply bucket_nonempty_In in H. apply in_map_iff. exists (k, bucket r k). auto.
Qed.

(** What a bucket scan yields. *)
Definition keep (last : option N) (c : char) : bool :=
  negb (is_range c) || match last with None => true | Some _ => false end.

Lemma iter_bucket_some : forall L l,
  iter_bucket (Some L) l = (Some L, filter (fun c => negb (is_range c)) l).
Proof.
  intros L l. induction l as [|c l IH]; simpl; auto. unfold is_range.
  destruct (ch_kind c); simpl; rewrite IH; reflexivity.
Qed.

Lemma iter_bucket_sub : forall l last c, In c (snd (iter_bucket last l)) -> In c l.
Proof.
  induction l as [|d l IH]; simpl; intros last c H; auto.
  destruct (ch_kind d) as [| |f lst] eqn:E.
  - specialize (IH last). destruct (iter_bucket last l) as [la out]. simpl in *. destruct H as [H|H]; auto.
  - specialize (IH last). destruct (iter_bucket last l) as [la out]. simpl in *. destruct H as [H|H]; auto.
  - destruct last.
    + right. eapply IH. exact H.
    + specialize (IH (Some lst)). destruct (iter_bucket (Some lst) l) as [la out]. simpl in *.
      destruct H as [H|H]; auto.
Qed.

Lemma iter_bucket_nonrange : forall l last c, In c l -> is_range c = false -> In c (snd (iter_bucket last l)).
Proof.
  induction l as [|d l IH]; simpl; intros last c Hin Hr; [contradiction|].
  destruct (ch_kind d) as [| |f lst] eqn:E.
  - specialize (IH last c). destruct (iter_bucket last l) as [la out]. simpl in *. destruct Hin; auto.
  - specialize (IH last c). destruct (iter_bucket last l) as [la out]. simpl in *. destruct Hin; auto.
  - assert (Hd : d <> c) by (intro Hc; subst; unfold is_range in Hr; rewrite E in Hr; discriminate).
    destruct last.
    + apply IH; auto. destruct Hin; [contradiction|auto].
    + specialize (IH (Some lst) c). destruct (iter_bucket (Some lst) l) as [la out]. simpl in *.
      destruct Hin; [contradiction|auto].
Qed.

Lemma iter_bucket_sorted : forall (R : char -> char -> Prop) l last,
  StronglySorted R l -> StronglySorted R (snd (iter_bucket last l)).
Proof.
  intros R l. induction l as [|d l IH]; simpl; intros last H; [constructor|].
  inversion H as [|? ? Hs Hf]; subst.
  assert (Hsub : forall la, Forall (R d) (snd (iter_bucket la l))).
  { intro la. rewrite Forall_forall in *. intros x Hx. apply Hf. eapply iter_bucket_sub; eauto. }
  destruct (ch_kind d) as [| |f lst] eqn:E.
  - specialize (IH last Hs). specialize (Hsub last). destruct (iter_bucket last l). simpl in *. constructor; auto.
  - specialize (IH last Hs). specialize (Hsub last). destruct (iter_bucket last l). simpl in *. constructor; auto.
  - destruct last; [apply IH; exact Hs|].
    specialize (IH (Some lst) Hs). specialize (Hsub (Some lst)). destruct (iter_bucket (Some lst) l). simpl in *. constructor; auto.
Qed.

Lemma iter_bucket_NoDup : forall l last, NoDup (map ch_cp l) -> NoDup (map ch_cp (snd (iter_bucket last l))).
Proof.
  induction l as [|d l IH]; simpl; intros last H; [constructor|].
  inversion H as [|? ? Hni Hnd]; subst.
  assert (Hsub : forall la, ~ In (ch_cp d) (map ch_cp (snd (iter_bucket la l)))).
  { intros la Hc. apply Hni. apply in_map_iff in Hc. destruct Hc as [x [Hx1 Hx2]].
    rewrite <- Hx1. apply in_map. eapply iter_bucket_sub; eauto. }
  destruct (ch_kind d) as [| |f lst] eqn:E.
  - specialize (IH last Hnd). specialize (Hsub last). destruct (iter_bucket last l). simpl in *. constructor; auto.
  - specialize (IH last Hnd). specialize (Hsub last). destruct (iter_bucket last l). simpl in *. constructor; auto.
  - destruct last; [apply IH; exact Hnd|].
    specialize (IH (Some lst) Hnd). specialize (Hsub (Some lst)). destruct (iter_bucket (Some lst) l). simpl in *. constructor; auto.
Qed.

(** General facts on the key loop. *)
Lemma iter_keys_sub : forall r ks last c, In c (iter_keys r last ks) -> exists k, In k ks /\ In c (bucket r k).
Proof.
  intros r ks. induction ks as [|k ks IH]; simpl; intros last c H; [contradiction|].
  set (last1 := match last with Some lc => if N.ltb lc k then None else Some lc | None => None end) in *.
  pose proof (iter_bucket_sub (isort len_leb (bucket r k)) last1 c) as Hsub.
  destruct (iter_bucket last1 (isort len_leb (bucket r k))) as [la out]. simpl in Hsub.
  apply in_app_iff in H. destruct H as [H|H].
  - exists k. split; auto. apply Hsub in H. apply isort_In in H. exact H.
  - destruct (IH _ _ H) as [k' [Hk1 Hk2]]. exists k'. auto.
Qed.

Lemma iter_keys_nonrange : forall r ks last c k, In k ks -> In c (bucket r k) -> is_range c = false ->
  In c (iter_keys r last ks).
Proof.
  intros r ks. induction ks as [|k0 ks IH]; simpl; intros last c k Hk Hc Hr; [contradiction|].
  set (last1 := match last with Some lc => if N.ltb lc k0 then None else Some lc | None => None end) in *.
  pose proof (iter_bucket_nonrange (isort len_leb (bucket r k0)) last1 c) as Hn.
  destruct (iter_bucket last1 (isort len_leb (bucket r k0))) as [la out]. simpl in Hn.
  apply in_app_iff. destruct Hk as [Hk|Hk].
  - subst k0. left. apply Hn; auto. apply isort_In. exact Hc.
  - right. eapply IH; eauto.
Qed.

(** Order on entries: first code point, then length. *)
Lemma iter_keys_sorted : forall r ks last, wf_rep r -> StronglySorted N.lt ks ->
  StronglySorted iter_order (iter_keys r last ks).
Proof.
  intros r ks. induction ks as [|k ks IH]; simpl; intros last Hwf Hs; [constructor|].
  inversion Hs as [|? ? Hs' Hf]; subst.
  set (last1 := match last with Some lc => if N.ltb lc k then None else Some lc | None => None end) in *.
  assert (Hb : StronglySorted iter_order (isort len_leb (bucket r k))).
  { pose proof (isort_sorted len_leb len_leb_total len_leb_trans (bucket r k)) as H.
    assert (Hall : forall c, In c (isort len_leb (bucket r k)) -> first_cp c = k).
    { intros c Hc. apply isort_In in Hc. destruct (bucket_wf r k c Hwf Hc) as [_ [t Ht]].
      unfold first_cp. rewrite Ht. reflexivity. }
    induction (isort len_leb (bucket r k)) as [|c l IHl]; [constructor|].
    inversion H as [|? ? Hss Hff]; subst. constructor.
    - apply IHl; auto. intros d Hd. apply Hall. right. exact Hd.
    - rewrite Forall_forall in *. intros d Hd. right. split.
      + rewrite (Hall c), (Hall d); auto; [right; exact Hd|left; reflexivity].
      + specialize (Hff d Hd). unfold le_, len_leb in Hff. apply Nat.leb_le in Hff. exact Hff. }
  pose proof (iter_bucket_sorted iter_order _ last1 Hb) as Hbs.
  pose proof (iter_bucket_sub (isort len_leb (bucket r k)) last1) as Hsub.
  destruct (iter_bucket last1 (isort len_leb (bucket r k))) as [la out]. simpl in Hbs, Hsub.
  apply StronglySorted_app; auto.
  intros a b Ha Hb'. left. apply Hsub in Ha. apply isort_In in Ha.
  apply iter_keys_sub in Hb'. destruct Hb' as [k' [Hk' Hb']].
  destruct (bucket_wf r k a Hwf Ha) as [_ [t Ht]]. destruct (bucket_wf r k' b Hwf Hb') as [_ [t' Ht']].
  unfold first_cp. rewrite Ht, Ht'. simpl. rewrite Forall_forall in Hf. apply Hf. exact Hk'.
Qed.

Lemma iter_keys_NoDup : forall r ks last, wf_rep r -> StronglySorted N.lt ks ->
  NoDup (map ch_cp (iter_keys r last ks)).
Proof.
  intros r ks. induction ks as [|k ks IH]; simpl; intros last Hwf Hs; [constructor|].
  inversion Hs as [|? ? Hs' Hf]; subst.
  set (last1 := match last with Some lc => if N.ltb lc k then None else Some lc | None => None end) in *.
  assert (Hb : NoDup (map ch_cp (isort len_leb (bucket r k)))).
  { eapply Permutation_NoDup; [apply Permutation_map, isort_perm|]. apply bucket_NoDup. exact Hwf. }
  pose proof (iter_bucket_NoDup _ last1 Hb) as Hbs.
  pose proof (iter_bucket_sub (isort len_leb (bucket r k)) last1) as Hsub.
  destruct (iter_bucket last1 (isort len_leb (bucket r k))) as [la out]. simpl in Hbs, Hsub.
  rewrite map_app. apply NoDup_app_iff. repeat split; auto.
  intros x Hx Hx'. apply in_map_iff in Hx. destruct Hx as [a [Ha1 Ha2]].
  apply in_map_iff in Hx'. destruct Hx' as [b [Hb1 Hb2]].
  apply Hsub in Ha2. apply isort_In in Ha2. apply iter_keys_sub in Hb2. destruct Hb2 as [k' [Hk' Hb2]].
  destruct (bucket_wf r k a Hwf Ha2) as [_ [t Ht]]. destruct (bucket_wf r k' b Hwf Hb2) as [_ [t' Ht']].
  assert (k = k') by congruence. subst. rewrite Forall_forall in Hf. specialize (Hf _ Hk'). lia.
Qed.

(** ** Facts for every well-formed repertoire *)
Theorem iter_general : forall r, wf_rep r ->
  StronglySorted iter_order (rep_iter r) /\
  NoDup (map ch_cp (rep_iter r)) /\
  (forall c, In c (rep_iter r) -> In c (all_chars r)) /\
  (forall c, In c (all_chars r) -> is_range c = false -> In c (rep_iter r)).
Proof.
  intros r Hwf. unfold rep_iter. repeat split.
  - apply iter_keys_sorted; auto. apply sorted_keys. exact Hwf.
  - apply iter_keys_NoDup; auto. apply sorted_keys. exact Hwf.
  - intros c H. apply iter_keys_sub in H. destruct H as [k [_ Hk]].
    apply all_chars_bucket; eauto.
  - intros c H Hr. apply all_chars_bucket in H; auto. destruct H as [k Hk].
    eapply iter_keys_nonrange; eauto. apply in_sorted_keys; auto.
    intro Hc. rewrite Hc in Hk. contradiction.
Qed.

(** ** Ranges intact: every member of a range is (still) in the repertoire as
    a member of this same range. *)
Definition range_at (r : repertoire) (k f l : N) : Prop :=
  exists d, lk r [k] = Some d /\ ch_kind d = KRange f l.

Lemma range_at_bucket : forall r k c f l, wf_rep r -> In c (bucket r k) -> ch_kind c = KRange f l ->
  ch_cp c = [k] /\ f <= k <= l /\ f < l /\ lk r [k] = Some c.
Proof.
  intros r k c f l Hwf Hc Hk. destruct (bucket_wf r k c Hwf Hc) as [[_ Hkind] [t Ht]].
  rewrite Hk in Hkind. destruct Hkind as [Hfl [[x [Hx Hx']] _]].
  rewrite Ht in Hx. injection Hx as Hx1 Hx2. subst x t. repeat split; auto; try lia.
  assert (Hin : In c (all_chars r)) by (apply all_chars_bucket; eauto).
  apply in_all_chars_lk in Hin; auto. rewrite Ht in Hin. exact Hin.
Qed.

Lemma iter_bucket_none_one : forall l,
  (forall c d, In c l -> In d l -> is_range c = true -> is_range d = true -> c = d) ->
  NoDup l ->
  snd (iter_bucket None l) = l /\
  (forall c f lst, In c l -> ch_kind c = KRange f lst -> fst (iter_bucket None l) = Some lst) /\
  ((forall c, In c l -> is_range c = false) -> fst (iter_bucket None l) = None).
Proof.
  induction l as [|d l IH]; simpl; intros Hone Hnd; [repeat split; intros; contradiction|].
  inversion Hnd as [|? ? Hni Hnd']; subst.
  assert (Hone' : forall c e, In c l -> In e l -> is_range c = true -> is_range e = true -> c = e).
  { intros c e Hc He. apply Hone; auto. }
  destruct (IH Hone' Hnd') as [IH1 [IH2 IH3]].
  destruct (ch_kind d) as [| |f lst] eqn:E.
  - destruct (iter_bucket None l) as [la out] eqn:Eb. simpl in *. subst out. repeat split; auto.
    intros c f lst [Hc|Hc] Hk; [congruence|eauto].
  - destruct (iter_bucket None l) as [la out] eqn:Eb. simpl in *. subst out. repeat split; auto.
    intros c f lst [Hc|Hc] Hk; [congruence|eauto].
  - assert (Hnr : forall c, In c l -> is_range c = false).
    { intros c Hc. destruct (is_range c) eqn:Ec; auto. exfalso. apply Hni.
      assert (d = c); [|congruence]. apply Hone; auto. unfold is_range. rewrite E. reflexivity. }
    rewrite iter_bucket_some. simpl. repeat split.
    + f_equal. clear -Hnr. induction l as [|c l IHl]; simpl; auto.
      rewrite (Hnr c) by (left; reflexivity). simpl. f_equal. apply IHl. intros e He. apply Hnr. right. exact He.
    + intros c f' lst' [Hc|Hc] Hk; [congruence|].
      specialize (Hnr c Hc). unfold is_range in Hnr. rewrite Hk in Hnr. discriminate.
    + intro H. assert (is_range d = false) by (apply H; auto). unfold is_range in H0. rewrite E in H0. discriminate.
Qed.

Lemma bucket_one_range : forall r k c d, wf_rep r -> In c (bucket r k) -> In d (bucket r k) ->
  is_range c = true -> is_range d = true -> c = d.
Proof.
  intros r k c d Hwf Hc Hd Hrc Hrd. unfold is_range in *.
  destruct (ch_kind c) as [| |f l] eqn:Ec; try discriminate.
  destruct (ch_kind d) as [| |f' l'] eqn:Ed; try discriminate.
  apply (range_at_bucket r k c f l Hwf Hc) in Ec. apply (range_at_bucket r k d f' l' Hwf Hd) in Ed.
  destruct Ec as [_ [_ [_ H1]]]. destruct Ed as [_ [_ [_ H2]]]. congruence.
Qed.

(** Invariant of the key loop. *)
Definition iinv (r : repertoire) (last : option N) (ks : list N) : Prop :=
  (forall L, last = Some L -> exists k0 f, (forall k, In k ks -> k0 < k) /\ range_at r k0 f L) /\
  (forall k0 f l k, range_at r k0 f l -> ~ In k0 ks -> In k ks -> k <= l -> f <= k -> last = Some l).

Lemma iter_keys_ranges : forall r ks last, wf_rep r -> ranges_intact r ->
  StronglySorted N.lt ks ->
  (forall k, bucket r k <> [] -> In k ks \/ (forall k', In k' ks -> k < k')) ->
  iinv r last ks ->
  forall c f l, In c (iter_keys r last ks) -> ch_kind c = KRange f l -> ch_cp c = [f].
Proof.
  intros r ks. induction ks as [|k ks IH]; intros last Hwf Hint Hs Hall [Ha Hb] c f l Hc Hk; [contradiction|].
  simpl in Hc. inversion Hs as [|? ? Hs' Hf]; subst. rewrite Forall_forall in Hf.
  set (last1 := match last with Some lc => if N.ltb lc k then None else Some lc | None => None end) in *.
  set (bk := isort len_leb (bucket r k)) in *.
  assert (Hone : forall c d, In c bk -> In d bk -> is_range c = true -> is_range d = true -> c = d).
  { intros c1 d1 H1 H2. apply isort_In in H1. apply isort_In in H2. eapply bucket_one_range; eauto. }
  assert (Hndb : NoDup bk).
  { apply isort_NoDup. eapply NoDup_map_inv. apply (bucket_NoDup r k). exact Hwf. }
  (* the range member at k, if any, is met with last1 = None iff k is its first code point *)
  assert (Hkey : forall d f' l', In d bk -> ch_kind d = KRange f' l' ->
            (last1 = None /\ k = f') \/ (last1 = Some l' /\ f' < k)).
  { intros d f' l' Hd Hkd. apply isort_In in Hd.
    destruct (range_at_bucket r k d f' l' Hwf Hd Hkd) as [Hcpd [Hin [Hlt Hlkd]]].
    destruct (N.eq_dec k f') as [E|E].
    - left. split; auto. subst f'. unfold last1. destruct last as [L|]; auto.
      destruct (N.ltb_spec L k) as [HL|HL]; auto. exfalso.
      destruct (Ha L eq_refl) as [k0 [f0 [Hk0 [d0 [Hd0 Hkd0]]]]].
      assert (Hk0k : k0 < k) by (apply Hk0; left; reflexivity).
      assert (Hd0in : In d0 (all_chars r)) by (eapply lk_in_all; eauto).
      assert (Hd0b : In d0 (bucket r k0)).
      { apply all_chars_bucket in Hd0in; auto. destruct Hd0in as [k1 Hk1].
        destruct (bucket_wf r k1 d0 Hwf Hk1) as [_ [t1 Ht1]].
        rewrite (lk_cp _ _ _ Hd0) in Ht1. injection Ht1 as Ht1 _. subst k1. exact Hk1. }
      destruct (range_at_bucket r k0 d0 f0 L Hwf Hd0b Hkd0) as [_ [Hin0 _]].
      destruct (Hint d0 f0 L Hd0in Hkd0 k) as [d' [Hd'1 Hd'2]]; [lia|].
      rewrite lookup_lk in Hd'1. rewrite Hlkd in Hd'1. injection Hd'1 as Hd'1. subst d'.
      rewrite Hkd in Hd'2. injection Hd'2 as H1 H2. subst f0 L. lia.
    - right. split; [|lia].
      assert (Hdin : In d (all_chars r)) by (apply all_chars_bucket; eauto).
      destruct (Hint d f' l' Hdin Hkd f') as [df [Hdf1 Hdf2]]; [lia|].
      rewrite lookup_lk in Hdf1.
      assert (HL : last = Some l').
      { apply (Hb f' f' l' k).
        - exists df. auto.
        - intros [Hx|Hx]; [congruence|]. specialize (Hf _ Hx). lia.
        - left. reflexivity.
        - lia.
        - lia. }
      unfold last1. rewrite HL. destruct (N.ltb_spec l' k); [lia|reflexivity]. }
  pose proof (iter_bucket_none_one bk Hone Hndb) as [Hn1 [Hn2 Hn3]].
  assert (Hstep : In c (snd (iter_bucket last1 bk)) \/ In c (iter_keys r (fst (iter_bucket last1 bk)) ks)).
  { destruct (iter_bucket last1 bk) as [la out]. simpl. apply in_app_iff in Hc. exact Hc. }
  destruct Hstep as [Hstep|Hstep].
  - assert (Hcb : In c bk) by (eapply iter_bucket_sub; eauto).
    destruct (Hkey c f l Hcb Hk) as [[_ Heq]|[Hl1 Hlt]].
    + subst f. assert (Hcb' : In c (bucket r k)) by (apply isort_In in Hcb; exact Hcb).
      destruct (range_at_bucket r k c k l Hwf Hcb' Hk) as [Hx _]. exact Hx.
    + rewrite Hl1, iter_bucket_some in Hstep. simpl in Hstep. apply filter_In in Hstep.
      destruct Hstep as [_ Hstep]. unfold is_range in Hstep. rewrite Hk in Hstep. discriminate.
  - apply (IH (fst (iter_bucket last1 bk)) Hwf Hint Hs') with (l := l); auto.
    + intros k' Hk'. destruct (Hall k' Hk') as [[H|H]|H].
      * subst k'. right. exact Hf.
      * left. exact H.
      * right. intros k'' Hk''. apply H. right. exact Hk''.
    + split.
      * (* a *)
        intros L HL.
        assert (Hcase : (exists d f', In d bk /\ ch_kind d = KRange f' L /\ last1 = None) \/ last1 = Some L).
        { destruct last1 as [L1|] eqn:E1.
          - rewrite iter_bucket_some in HL. simpl in HL. right. congruence.
          - left. destruct (existsb is_range bk) eqn:Eex.
            + apply existsb_exists in Eex. destruct Eex as [d [Hd1 Hd2]]. unfold is_range in Hd2.
              destruct (ch_kind d) as [| |f' l'] eqn:Ed; try discriminate.
              specialize (Hn2 d f' l' Hd1 Ed). rewrite Hn2 in HL. injection HL as HL. subst l'.
              exists d, f'. auto.
            + exfalso. rewrite Hn3 in HL; [discriminate|]. intros e He.
              destruct (is_range e) eqn:Ee; auto. assert (existsb is_range bk = true); [|congruence].
              apply existsb_exists. eauto. }
        destruct Hcase as [[d [f' [Hd1 [Hd2 _]]]]|Hcase].
        -- exists k, f'. split; [exact Hf|]. apply isort_In in Hd1.
           destruct (range_at_bucket r k d f' L Hwf Hd1 Hd2) as [_ [_ [_ Hx]]]. exists d. auto.
        -- unfold last1 in Hcase. destruct last as [L0|]; [|discriminate].
           destruct (N.ltb L0 k); [discriminate|]. injection Hcase as Hcase. subst L0.
           destruct (Ha L eq_refl) as [k0 [f0 [H1 H2]]]. exists k0, f0. split; auto.
           intros k' Hk'. apply H1. right. exact Hk'.
      * (* b *)
        intros k0 f0 l0 k1 Hr0 Hn0 Hk1 Hle Hge.
        destruct (N.eq_dec k0 k) as [E|E].
        -- subst k0. destruct Hr0 as [d0 [Hd0 Hkd0]].
           assert (Hd0b : In d0 bk).
           { apply isort_In. unfold lk in Hd0. apply find_some in Hd0. apply Hd0. }
           destruct (Hkey d0 f0 l0 Hd0b Hkd0) as [[H1 _]|[H1 _]].
           ++ rewrite H1. eapply Hn2; eauto.
           ++ rewrite H1, iter_bucket_some. reflexivity.
        -- assert (HL : last = Some l0).
           { apply (Hb k0 f0 l0 k1); auto.
             - intros [H|H]; [congruence|contradiction].
             - right. exact Hk1. }
           unfold last1. rewrite HL. specialize (Hf k1 Hk1).
           destruct (N.ltb_spec l0 k); [lia|]. rewrite iter_bucket_some. reflexivity.
Qed.

Lemma iter_keys_first : forall r ks last, wf_rep r -> ranges_intact r ->
  StronglySorted N.lt ks ->
  iinv r last ks ->
  (forall k, bucket r k <> [] -> In k ks \/ (forall k', In k' ks -> k < k')) ->
  forall c f l, In f ks -> lk r [f] = Some c -> ch_kind c = KRange f l -> In c (iter_keys r last ks).
Proof.
  intros r ks. induction ks as [|k ks IH]; intros last Hwf Hint Hs [Ha Hb] Hall c f l Hfk Hlk Hk; [contradiction|].
  simpl. inversion Hs as [|? ? Hs' Hf]; subst. rewrite Forall_forall in Hf.
  set (last1 := match last with Some lc => if N.ltb lc k then None else Some lc | None => None end) in *.
  set (bk := isort len_leb (bucket r k)) in *.
  assert (Hone : forall c d, In c bk -> In d bk -> is_range c = true -> is_range d = true -> c = d).
  { intros c1 d1 H1 H2. apply isort_In in H1. apply isort_In in H2. eapply bucket_one_range; eauto. }
  assert (Hndb : NoDup bk).
  { apply isort_NoDup. eapply NoDup_map_inv. apply (bucket_NoDup r k). exact Hwf. }
  assert (Hkey : forall d f' l', In d bk -> ch_kind d = KRange f' l' ->
            (last1 = None /\ k = f') \/ (last1 = Some l' /\ f' < k)).
  { intros d f' l' Hd Hkd. apply isort_In in Hd.
    destruct (range_at_bucket r k d f' l' Hwf Hd Hkd) as [Hcpd [Hin [Hlt Hlkd]]].
    destruct (N.eq_dec k f') as [E|E].
    - left. split; auto. subst f'. unfold last1. destruct last as [L|]; auto.
      destruct (N.ltb_spec L k) as [HL|HL]; auto. exfalso.
      destruct (Ha L eq_refl) as [k0 [f0 [Hk0 [d0 [Hd0 Hkd0]]]]].
      assert (Hk0k : k0 < k) by (apply Hk0; left; reflexivity).
      assert (Hd0in : In d0 (all_chars r)) by (eapply lk_in_all; eauto).
      assert (Hd0b : In d0 (bucket r k0)).
      { apply all_chars_bucket in Hd0in; auto. destruct Hd0in as [k1 Hk1].
        destruct (bucket_wf r k1 d0 Hwf Hk1) as [_ [t1 Ht1]].
        rewrite (lk_cp _ _ _ Hd0) in Ht1. injection Ht1 as Ht1 _. subst k1. exact Hk1. }
      destruct (range_at_bucket r k0 d0 f0 L Hwf Hd0b Hkd0) as [_ [Hin0 _]].
      destruct (Hint d0 f0 L Hd0in Hkd0 k) as [d' [Hd'1 Hd'2]]; [lia|].
      rewrite lookup_lk in Hd'1. rewrite Hlkd in Hd'1. injection Hd'1 as Hd'1. subst d'.
      rewrite Hkd in Hd'2. injection Hd'2 as H1 H2. subst f0 L. lia.
    - right. split; [|lia].
      assert (Hdin : In d (all_chars r)) by (apply all_chars_bucket; eauto).
      destruct (Hint d f' l' Hdin Hkd f') as [df [Hdf1 Hdf2]]; [lia|].
      rewrite lookup_lk in Hdf1.
      assert (HL : last = Some l').
      { apply (Hb f' f' l' k).
        - exists df. auto.
        - intros [Hx|Hx]; [congruence|]. specialize (Hf _ Hx). lia.
        - left. reflexivity.
        - lia.
        - lia. }
      unfold last1. rewrite HL. destruct (N.ltb_spec l' k); [lia|reflexivity]. }
  pose proof (iter_bucket_none_one bk Hone Hndb) as [Hn1 [Hn2 Hn3]].
  assert (Hgoal : In c (snd (iter_bucket last1 bk)) \/ In c (iter_keys r (fst (iter_bucket last1 bk)) ks)).
  2:{ destruct (iter_bucket last1 bk) as [la out]. apply in_app_iff. exact Hgoal. }
  destruct (N.eq_dec f k) as [E|E].
  - subst f. left. assert (Hcb : In c bk).
    { apply isort_In. unfold lk in Hlk. apply find_some in Hlk. apply Hlk. }
    destruct (Hkey c k l Hcb Hk) as [[H1 _]|[_ H1]]; [|lia].
    rewrite H1, Hn1. exact Hcb.
  - right. destruct Hfk as [Hfk|Hfk]; [congruence|].
    apply (IH (fst (iter_bucket last1 bk)) Hwf Hint Hs') with (f := f) (l := l); auto.
    2:{ intros k' Hk'. destruct (Hall k' Hk') as [[H|H]|H].
      * subst k'. right. exact Hf.
      * left. exact H.
      * right. intros k'' Hk''. apply H. right. exact Hk''. }
    split.
      * intros L HL.
        assert (Hcase : (exists d f', In d bk /\ ch_kind d = KRange f' L /\ last1 = None) \/ last1 = Some L).
        { destruct last1 as [L1|] eqn:E1.
          - rewrite iter_bucket_some in HL. simpl in HL. right. congruence.
          - left. destruct (existsb is_range bk) eqn:Eex.
            + apply existsb_exists in Eex. destruct Eex as [d [Hd1 Hd2]]. unfold is_range in Hd2.
              destruct (ch_kind d) as [| |f' l'] eqn:Ed; try discriminate.
              specialize (Hn2 d f' l' Hd1 Ed). rewrite Hn2 in HL. injection HL as HL. subst l'.
              exists d, f'. auto.
            + exfalso. rewrite Hn3 in HL; [discriminate|]. intros e He.
              destruct (is_range e) eqn:Ee; auto. assert (existsb is_range bk = true); [|congruence].
              apply existsb_exists. eauto. }
        destruct Hcase as [[d [f' [Hd1 [Hd2 _]]]]|Hcase].
        -- exists k, f'. split; [exact Hf|]. apply isort_In in Hd1.
           destruct (range_at_bucket r k d f' L Hwf Hd1 Hd2) as [_ [_ [_ Hx]]]. exists d. auto.
        -- unfold last1 in Hcase. destruct last as [L0|]; [|discriminate].
           destruct (N.ltb L0 k); [discriminate|]. injection Hcase as Hcase. subst L0.
           destruct (Ha L eq_refl) as [k0 [f0 [H1 H2]]]. exists k0, f0. split; auto.
           intros k' Hk'. apply H1. right. exact Hk'.
      * intros k0 f0 l0 k1 Hr0 Hn0 Hk1 Hle Hge.
        destruct (N.eq_dec k0 k) as [E'|E'].
        -- subst k0. destruct Hr0 as [d0 [Hd0 Hkd0]].
           assert (Hd0b : In d0 bk).
           { apply isort_In. unfold lk in Hd0. apply find_some in Hd0. apply Hd0. }
           destruct (Hkey d0 f0 l0 Hd0b Hkd0) as [[H1 _]|[H1 _]].
           ++ rewrite H1. eapply Hn2; eauto.
           ++ rewrite H1, iter_bucket_some. reflexivity.
        -- assert (HL : last = Some l0).
           { apply (Hb k0 f0 l0 k1); auto.
             - intros [H|H]; [congruence|contradiction].
             - right. exact Hk1. }
           unfold last1. rewrite HL. specialize (Hf k1 Hk1).
           destruct (N.ltb_spec l0 k); [lia|]. rewrite iter_bucket_some. reflexivity.
Qed.

Lemma iinv_init : forall r, wf_rep r -> iinv r None (isort N.leb (dkeys (rep_chars r))).
Proof.
  intros r Hwf. split; [discriminate|].
  intros k0 f l k [d [Hd _]] Hn. exfalso. apply Hn. apply in_sorted_keys; auto.
  unfold lk in Hd. apply find_some in Hd. destruct Hd as [Hd _]. intro Hc. rewrite Hc in Hd. contradiction.
Qed.

(** With intact ranges, iteration yields exactly the non-range entries and the
    first member of each range. *)
Theorem iter_intact : forall r, wf_rep r -> ranges_intact r ->
  forall c, In c (rep_iter r) <->
    In c (all_chars r) /\ (forall f l, ch_kind c = KRange f l -> ch_cp c = [f]).
Proof.
  intros r Hwf Hint c. destruct (iter_general r Hwf) as [_ [_ [Hsub Hnr]]].
  assert (Hall : forall k, bucket r k <> [] -> In k (isort N.leb (dkeys (rep_chars r))) \/
            (forall k', In k' (isort N.leb (dkeys (rep_chars r))) -> k < k')).
  { intros k Hk. left. apply in_sorted_keys; auto. }
  split.
  - intro H. split; [apply Hsub; exact H|]. intros f l Hk.
    eapply (iter_keys_ranges r (isort N.leb (dkeys (rep_chars r))) None Hwf Hint (sorted_keys r Hwf) Hall (iinv_init r Hwf)); eauto.
  - intros [H Hr]. destruct (is_range c) eqn:E; [|apply Hnr; auto].
    unfold is_range in E. destruct (ch_kind c) as [| |f l] eqn:Ek; try discriminate.
    specialize (Hr f l eq_refl). apply in_all_chars_lk in H; auto. rewrite Hr in H.
    apply (iter_keys_first r (isort N.leb (dkeys (rep_chars r))) None Hwf Hint (sorted_keys r Hwf) (iinv_init r Hwf) Hall c f l); auto.
    apply in_sorted_keys; auto. unfold lk in H. apply find_some in H. destruct H as [H _].
    intro Hc. rewrite Hc in H. contradiction.
Qed.
