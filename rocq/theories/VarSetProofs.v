From Verif Require Import Base BaseFacts CharModel RepSpec RepProofs VariantProofs IterProofs VarSetSpec.

Section S.
Variable r : repertoire.
Variable force : bool.
Hypothesis Hwf : wf_rep r.

Lemma edge_lk : forall a b, edge r force a b <->
  exists ch v, lk r a = Some ch /\ In v (get_variants ch) /\ v_cp v = b /\ (force = true \/ lk r b <> None).
Proof.
  intros a b. unfold edge. split; intros [ch [v [H1 [H2 [H3 H4]]]]]; exists ch, v;
    rewrite !lookup_lk in *; auto.
Qed.

Lemma reach_trans : forall a b c, reach r force a b -> reach r force b c -> reach r force a c.
Proof.
  intros a b c H. induction H as [a|a b d He Hr IH]; auto.
  intro Hc. eapply reach_step; eauto.
Qed.

Lemma variant_cp_nonempty : forall ch v, wf_char ch -> In v (get_variants ch) -> v_cp v <> [].
Proof.
  intros ch v Hc H. apply get_variants_In in H; auto. destruct H as [l [H1 _]].
  destruct Hc as [[_ Hv] _]. apply (Hv _ _ H1).
Qed.

Definition good (c : cps) (visited vis' : list cps) : Prop :=
  incl visited vis' /\ In c vis' /\
  (forall x, In x vis' -> In x visited \/ reach r force c x) /\
  (forall x y, In x vis' -> ~ In x visited -> edge r force x y -> In y vis') /\
  (NoDup visited -> NoDup vis').

Lemma dfs_loop_good : forall (rec : char -> list cps -> option (list cps)),
  (forall ch visited vis', lk r (ch_cp ch) = Some ch -> ~ In (ch_cp ch) visited ->
     rec ch visited = Some vis' -> good (ch_cp ch) visited vis') ->
  forall vs visited vis',
  (forall v, In v vs -> v_cp v <> []) ->
  dfs_loop rec r force vs visited = Some vis' ->
  incl visited vis' /\
  (forall v, In v vs -> (force = true \/ lk r (v_cp v) <> None) -> In (v_cp v) vis') /\
  (forall x, In x vis' -> In x visited \/
     exists v, In v vs /\ (force = true \/ lk r (v_cp v) <> None) /\ reach r force (v_cp v) x) /\
  (forall x y, In x vis' -> ~ In x visited -> edge r force x y -> In y vis') /\
  (NoDup visited -> NoDup vis').
Proof.
  intros rec Hrec vs. induction vs as [|v vs IH]; simpl; intros visited vis' Hne H.
  - injection H as H. subst. split; [apply incl_refl|]. split; [intros; contradiction|].
    split; auto. split; auto. intros x y H1 H2. contradiction.
  - assert (Hne' : forall u, In u vs -> v_cp u <> []) by (intros; apply Hne; auto).
    destruct (memb cps_eqb (v_cp v) visited) eqn:Em.
    + apply (memb_In _ _ cps_eqb_eq) in Em. specialize (IH _ _ Hne' H).
      destruct IH as [H1 [H2 [H3 [H4 H5]]]]. split; auto. split; [|split; [|split]]; auto.
      * intros u [Hu|Hu]; [subst; intro; apply H1; exact Em|auto].
      * intros x Hx. destruct (H3 x Hx) as [Ha|[u [Hu1 Hu2]]]; auto. right. exists u. auto.
    + apply (memb_false _ _ cps_eqb_eq) in Em.
      rewrite get_char_lk in H by (apply Hne; auto).
      destruct (lk r (v_cp v)) as [ch|] eqn:El.
      * destruct (rec ch visited) as [vis1|] eqn:Er; [|discriminate].
        assert (Hcp : ch_cp ch = v_cp v) by (eapply lk_cp; eauto).
        assert (Hg : good (ch_cp ch) visited vis1).
        { apply Hrec; auto; rewrite Hcp; auto. }
        rewrite Hcp in Hg. destruct Hg as [G1 [G2 [G3 [G4 G5]]]].
        specialize (IH _ _ Hne' H). destruct IH as [H1 [H2 [H3 [H4 H5]]]].
        split; [eapply incl_tran; eauto|]. split; [|split; [|split]].
        -- intros u [Hu|Hu]; [subst; intro; apply H1; exact G2|auto].
        -- intros x Hx. destruct (H3 x Hx) as [Ha|[u [Hu1 Hu2]]].
           ++ destruct (G3 x Ha) as [Hb|Hb]; auto. right. exists v. split; auto. split; auto.
              right. rewrite El. discriminate.
           ++ right. exists u. auto.
        -- intros x y Hx Hn He. destruct (in_dec cps_eq_dec x vis1) as [Hi|Hi].
           ++ apply H1. eapply G4; eauto.
           ++ eapply H4; eauto.
        -- intro Hnd. auto.
      * destruct force eqn:Ef.
        -- specialize (IH _ _ Hne' H). destruct IH as [H1 [H2 [H3 [H4 H5]]]].
           split; [intros x Hx; apply H1; right; exact Hx|]. split; [|split; [|split]].
           ++ intros u [Hu|Hu]; [subst; intro; apply H1; left; reflexivity|auto].
           ++ intros x Hx. destruct (H3 x Hx) as [[Ha|Ha]|[u [Hu1 Hu2]]]; auto.
              ** right. exists v. split; auto. split; auto. subst. apply reach_refl.
              ** right. exists u. auto.
           ++ intros x y Hx Hn He. destruct (cps_eq_dec x (v_cp v)) as [E|E].
              ** subst x. exfalso. destruct He as [ch [w [Hc _]]]. rewrite lookup_lk in Hc. congruence.
              ** apply (H4 x y); auto. intros [Hc|Hc]; [congruence|contradiction].
           ++ intro Hnd. apply H5. constructor; auto.
        -- specialize (IH _ _ Hne' H). destruct IH as [H1 [H2 [H3 [H4 H5]]]].
           split; auto. split; [|split; [|split]]; auto.
           ++ intros u [Hu|Hu]; [subst|auto]. intros [Hc|Hc]; [discriminate|congruence].
           ++ intros x Hx. destruct (H3 x Hx) as [Ha|[u [Hu1 Hu2]]]; auto. right. exists u. auto.
Qed.

Lemma dfs_good : forall fuel ch visited vis',
  lk r (ch_cp ch) = Some ch -> ~ In (ch_cp ch) visited ->
  dfs fuel r force ch visited = Some vis' -> good (ch_cp ch) visited vis'.
Proof.
  induction fuel as [|fuel IH]; simpl; intros ch visited vis' Hlk Hn H; [discriminate|].
  assert (Em : memb cps_eqb (ch_cp ch) visited = false) by (apply (memb_false _ _ cps_eqb_eq); exact Hn).
  rewrite Em in H.
  assert (Hwc : wf_char ch) by (eapply lk_wf; eauto).
  apply dfs_loop_good in H.
  - destruct H as [H1 [H2 [H3 [H4 H5]]]].
    split; [intros x Hx; apply H1; right; exact Hx|]. split; [apply H1; left; reflexivity|].
    split; [|split].
    + intros x Hx. destruct (H3 x Hx) as [[Ha|Ha]|[v [Hv1 [Hv2 Hv3]]]]; auto.
      * right. subst. apply reach_refl.
      * right. eapply reach_step; [|exact Hv3]. apply edge_lk. exists ch, v. auto.
    + intros x y Hx Hnx He. destruct (cps_eq_dec x (ch_cp ch)) as [E|E].
      * subst x. apply edge_lk in He. destruct He as [ch' [v [Hc [Hv [Hvc Hf]]]]].
        rewrite Hlk in Hc. injection Hc as Hc. subst ch' y. apply H2; auto.
      * apply (H4 x y); auto. intros [Hc|Hc]; [congruence|contradiction].
    + intro Hnd. apply H5. constructor; auto.
  - exact IH.
  - intros v Hv. eapply variant_cp_nonempty; eauto.
Qed.

(** Fuel. *)
Definition unvis (visited : list cps) : nat :=
  length (filter (fun ch => negb (memb cps_eqb (ch_cp ch) visited)) (all_chars r)).

Lemma filter_length_le : forall A (f g : A -> bool) l,
  (forall x, In x l -> f x = true -> g x = true) -> (length (filter f l) <= length (filter g l))%nat.
Proof.
  intros A f g l. induction l as [|x l IH]; simpl; intro H; auto.
  assert (IH' : (length (filter f l) <= length (filter g l))%nat) by (apply IH; auto).
  destruct (f x) eqn:Ef.
  - rewrite (H x (or_introl eq_refl) Ef). simpl. lia.
  - destruct (g x); simpl; lia.
Qed.

Lemma filter_length_lt : forall A (f g : A -> bool) l x,
  (forall x, In x l -> f x = true -> g x = true) -> In x l -> f x = false -> g x = true ->
  (length (filter f l) < length (filter g l))%nat.
Proof.
  intros A f g l x. induction l as [|y l IH]; simpl; intros H Hin Hf Hg; [contradiction|].
  assert (Hle : (length (filter f l) <= length (filter g l))%nat) by (apply filter_length_le; auto).
  destruct Hin as [Hin|Hin].
  - subst y. rewrite Hf, Hg. simpl. lia.
  - assert (IH' : (length (filter f l) < length (filter g l))%nat) by (apply IH; auto).
    destruct (f y) eqn:Ef.
    + rewrite (H y (or_introl eq_refl) Ef). simpl. lia.
    + destruct (g y); simpl; lia.
Qed.

Lemma filter_len_le : forall A (f : A -> bool) l, (length (filter f l) <= length l)%nat.
Proof. intros A f l. induction l as [|x l IH]; simpl; auto. destruct (f x); simpl; lia. Qed.

Lemma unvis_mono : forall v1 v2, incl v1 v2 -> (unvis v2 <= unvis v1)%nat.
Proof.
  intros v1 v2 H. unfold unvis. apply filter_length_le. intros x _ Hx.
  apply negb_true_iff in Hx. apply (memb_false _ _ cps_eqb_eq) in Hx.
  apply negb_true_iff. apply (memb_false _ _ cps_eqb_eq). auto.
Qed.

Lemma unvis_lt : forall v1 ch, In ch (all_chars r) -> ~ In (ch_cp ch) v1 ->
  (unvis (ch_cp ch :: v1) < unvis v1)%nat.
Proof.
  intros v1 ch Hin Hn. unfold unvis. apply filter_length_lt with (x := ch); auto.
  - intros x _ Hx. apply negb_true_iff in Hx. apply (memb_false _ _ cps_eqb_eq) in Hx.
    apply negb_true_iff. apply (memb_false _ _ cps_eqb_eq). simpl in Hx. tauto.
  - apply negb_false_iff. apply (memb_In _ _ cps_eqb_eq). left. reflexivity.
  - apply negb_true_iff. apply (memb_false _ _ cps_eqb_eq). exact Hn.
Qed.

Lemma dfs_loop_fuel : forall fuel,
  (forall ch visited, lk r (ch_cp ch) = Some ch -> ~ In (ch_cp ch) visited ->
     (unvis visited <= fuel)%nat -> dfs fuel r force ch visited <> None) ->
  forall vs visited, (forall v, In v vs -> v_cp v <> []) -> (unvis visited <= fuel)%nat ->
  dfs_loop (dfs fuel r force) r force vs visited <> None.
Proof.
  intros fuel Hrec vs. induction vs as [|v vs IH]; simpl; intros visited Hne Hf; [discriminate|].
  assert (Hne' : forall u, In u vs -> v_cp u <> []) by (intros; apply Hne; auto).
  destruct (memb cps_eqb (v_cp v) visited) eqn:Em; [apply IH; auto|].
  apply (memb_false _ _ cps_eqb_eq) in Em.
  rewrite get_char_lk by (apply Hne; auto).
  destruct (lk r (v_cp v)) as [ch|] eqn:El.
  - assert (Hcp : ch_cp ch = v_cp v) by (eapply lk_cp; eauto).
    destruct (dfs fuel r force ch visited) as [vis1|] eqn:Ed.
    + apply IH; auto. assert (Hg : good (ch_cp ch) visited vis1).
      { eapply dfs_good; eauto; rewrite Hcp; auto. }
      eapply Nat.le_trans; [apply unvis_mono; apply Hg|exact Hf].
    + exfalso. revert Ed. apply Hrec; auto; rewrite Hcp; auto.
  - apply IH; auto. destruct force; auto.
    eapply Nat.le_trans; [apply unvis_mono|exact Hf]. intros x Hx. right. exact Hx.
Qed.

Lemma dfs_fuel : forall fuel ch visited, lk r (ch_cp ch) = Some ch -> ~ In (ch_cp ch) visited ->
  (unvis visited <= fuel)%nat -> dfs fuel r force ch visited <> None.
Proof.
  induction fuel as [|fuel IH]; intros ch visited Hlk Hn Hf.
  - exfalso. assert (Hin : In ch (all_chars r)) by (eapply lk_in_all; eauto).
    pose proof (unvis_lt visited ch Hin Hn). lia.
  - cbn [dfs].
    assert (Em : memb cps_eqb (ch_cp ch) visited = false) by (apply (memb_false _ _ cps_eqb_eq); exact Hn).
    rewrite Em. apply dfs_loop_fuel; auto.
    + intros v Hv. eapply variant_cp_nonempty; [|exact Hv]. eapply lk_wf; eauto.
    + assert (Hin : In ch (all_chars r)) by (eapply lk_in_all; eauto).
      pose proof (unvis_lt visited ch Hin Hn). lia.
Qed.

(** dfs from the empty set computes reachability. *)
Lemma dfs_reach : forall ch, lk r (ch_cp ch) = Some ch ->
  exists vis, dfs (S (rep_len r)) r force ch [] = Some vis /\ NoDup vis /\
    forall x, In x vis <-> reach r force (ch_cp ch) x.
Proof.
  intros ch Hlk. destruct (dfs (S (rep_len r)) r force ch []) as [vis|] eqn:E.
  - exists vis. split; auto. apply dfs_good in E; auto. destruct E as [H1 [H2 [H3 [H4 H5]]]].
    split; [apply H5; constructor|]. intro x. split.
    + intro H. destruct (H3 x H) as [[]|Hx]. exact Hx.
    + intro H. clear H3 H5 H1 Hlk. revert H2. induction H as [a|a b c He Hr IH]; auto.
      intro Ha. apply IH. eapply H4; eauto.
  - exfalso. revert E. apply dfs_fuel; auto. unfold unvis. rewrite rep_len_all.
    apply Nat.le_trans with (length (all_chars r)); [|lia].
    apply filter_len_le.
Qed.

Lemma all_some_map : forall A B (f : A -> option B) l,
  (forall a, In a l -> f a <> None) ->
  exists l', all_some (map f l) = Some l' /\ (forall b, In b l' <-> exists a, In a l /\ f a = Some b).
Proof.
  intros A B f l. induction l as [|a l IH]; simpl; intro H.
  - exists []. split; auto. intro b. split; [contradiction|]. intros [a [[] _]].
  - destruct (f a) as [b|] eqn:E; [|exfalso; apply (H a); auto].
    destruct IH as [l' [H1 H2]]; [auto|]. rewrite H1. exists (b :: l'). split; auto.
    intro b'. simpl. rewrite H2. split.
    + intros [Hb|[a' [Ha1 Ha2]]]; [subst; eauto|eauto].
    + intros [a' [[Ha|Ha] Hb]]; [subst; left; congruence|eauto].
Qed.
End S.

Lemma list_eqb_iff : forall a b, list_eqb a b = true <-> a = b.
Proof.
  induction a as [|x a IH]; destruct b as [|y b]; simpl; split; intro H; try congruence; auto.
  - apply andb_true_iff in H. destruct H as [H1 H2]. apply cps_eqb_eq in H1. apply IH in H2. congruence.
  - injection H as H1 H2. subst. rewrite cps_eqb_refl. simpl. apply IH. reflexivity.
Qed.

Lemma isort_strict : forall l, NoDup l -> StronglySorted cps_lt (isort cps_leb l).
Proof.
  intros l Hnd.
  pose proof (isort_sorted cps_leb cps_leb_total cps_leb_trans l) as Hs.
  pose proof (isort_NoDup cps_leb _ Hnd) as Hn.
  induction (isort cps_leb l) as [|k ks IH]; [constructor|].
  inversion Hs as [|? ? Hs' Hf]; subst. inversion Hn as [|? ? Hni Hn']; subst. constructor; auto.
  rewrite Forall_forall in *. intros x Hx. split; [apply Hf; exact Hx|congruence].
Qed.

Lemma strict_sorted_weak : forall l, StronglySorted cps_lt l -> StronglySorted (le_ cps_leb) l.
Proof.
  induction l as [|x l IH]; intro H; [constructor|]. inversion H as [|? ? Hs Hf]; subst. constructor; auto.
  eapply Forall_impl; [|exact Hf]. intros a Ha. apply Ha.
Qed.

Lemma strict_sorted_NoDup : forall l, StronglySorted cps_lt l -> NoDup l.
Proof.
  induction l as [|x l IH]; intro H; [constructor|]. inversion H as [|? ? Hs Hf]; subst. constructor; auto.
  intro Hc. rewrite Forall_forall in Hf. destruct (Hf x Hc) as [_ Hx]. congruence.
Qed.

Lemma strict_sorted_eq : forall l1 l2, StronglySorted cps_lt l1 -> StronglySorted cps_lt l2 ->
  (forall x, In x l1 <-> In x l2) -> l1 = l2.
Proof.
  intros l1 l2 H1 H2 H.
  apply (sorted_perm_eq cps_leb cps_leb_antisym).
  - apply strict_sorted_weak. exact H1.
  - apply strict_sorted_weak. exact H2.
  - apply NoDup_Permutation; auto using strict_sorted_NoDup.
Qed.

Theorem variant_sets_spec : forall r force, wf_rep r ->
  exists sets, get_variant_sets r force = Some sets /\ NoDup sets /\
    forall s, In s sets <->
      (StronglySorted cps_lt s /\ (2 <= length s)%nat /\
       exists a, lookup r a <> None /\ forall x, In x s <-> reach r force a x).
Proof.
  intros r force Hwf. unfold get_variant_sets.
  set (chars := flat_map (bucket r) (isort N.leb (dkeys (rep_chars r)))).
  assert (Hch : forall c, In c chars <-> lk r (ch_cp c) = Some c).
  { intro c. unfold chars. rewrite in_flat_map. rewrite <- in_all_chars_lk by exact Hwf.
    rewrite all_chars_bucket by exact Hwf. split.
    - intros [k [_ Hk]]. eauto.
    - intros [k Hk]. exists k. split; auto. apply in_sorted_keys; auto.
      intro Hc. rewrite Hc in Hk. contradiction. }
  destruct (all_some_map _ _ (fun c => dfs (S (rep_len r)) r force c []) chars) as [l [Hl1 Hl2]].
  { intros a Ha. apply Hch in Ha. destruct (dfs_reach r force Hwf a Ha) as [vis [Hv _]].
    cbv beta. rewrite Hv. discriminate. }
  rewrite Hl1. eexists. split; [reflexivity|]. split.
  { apply isort_NoDup. apply dedup_NoDup. apply list_eqb_iff. }
  intro s. rewrite isort_In, (dedup_In _ _ list_eqb_iff), filter_In, in_map_iff. split.
  - intros [[vis [Hs Hvis]] Hlen]. apply Hl2 in Hvis. destruct Hvis as [c [Hc1 Hc2]].
    apply Hch in Hc1. destruct (dfs_reach r force Hwf c Hc1) as [vis' [Hv1 [Hv2 Hv3]]].
    cbv beta in Hc2. rewrite Hv1 in Hc2. injection Hc2 as Hc2. subst vis' s.
    split; [apply isort_strict; exact Hv2|]. split; [apply Nat.ltb_lt in Hlen; exact Hlen|].
    exists (ch_cp c). split; [rewrite lookup_lk, Hc1; discriminate|].
    intro x. rewrite isort_In. apply Hv3.
  - intros [Hs [Hlen [a [Ha Hx]]]]. split; [|apply Nat.ltb_lt; exact Hlen].
    rewrite lookup_lk in Ha. destruct (lk r a) as [c|] eqn:El; [|congruence].
    assert (Hcp : ch_cp c = a) by (eapply lk_cp; eauto).
    assert (Hc1 : lk r (ch_cp c) = Some c) by (rewrite Hcp; exact El).
    destruct (dfs_reach r force Hwf c Hc1) as [vis [Hv1 [Hv2 Hv3]]].
    exists vis. split.
    + apply strict_sorted_eq; auto; [apply isort_strict; exact Hv2|].
      intro x. rewrite isort_In, Hv3, Hcp. symmetry. apply Hx.
    + apply Hl2. exists c. split; auto. apply Hch. exact Hc1.
Qed.

(** With a symmetric variant relation the sets partition the entries having
    variants. *)
Theorem variant_sets_disjoint : forall r force sets s1 s2 x, wf_rep r ->
  (forall a b, edge r force a b -> edge r force b a) ->
  get_variant_sets r force = Some sets -> In s1 sets -> In s2 sets ->
  In x s1 -> In x s2 -> s1 = s2.
Proof.
  intros r force sets s1 s2 x Hwf Hsym Hg H1 H2 Hx1 Hx2.
  destruct (variant_sets_spec r force Hwf) as [sets' [Hg' [_ Hs]]].
  rewrite Hg in Hg'. injection Hg' as Hg'. subst sets'.
  apply Hs in H1. apply Hs in H2. destruct H1 as [Hs1 [_ [a [_ Ha]]]]. destruct H2 as [Hs2 [_ [b [_ Hb]]]].
  assert (Hrs : forall u v, reach r force u v -> reach r force v u).
  { intros u v H. induction H as [u|u v w He Hr IH]; [apply reach_refl|].
    eapply reach_trans; [exact IH|]. eapply reach_step; [apply Hsym; exact He|apply reach_refl]. }
  apply strict_sorted_eq; auto. intro y. rewrite Ha, Hb. apply Ha in Hx1. apply Hb in Hx2.
  split; intro H.
  - eapply reach_trans; [exact Hx2|]. eapply reach_trans; [apply Hrs; exact Hx1|exact H].
  - eapply reach_trans; [exact Hx1|]. eapply reach_trans; [apply Hrs; exact Hx2|exact H].
Qed.

(** Counter-example for asymmetric variants: sets overlap without being equal. *)
Lemma variant_sets_overlap_refuted :
  exists ops sets s1 s2 x, let r := fst (rep_run empty_rep ops) in
    get_variant_sets r false = Some sets /\ In s1 sets /\ In s2 sets /\ In x s1 /\ In x s2 /\ s1 <> s2.
Proof.
  exists [OpAddChar [1] None [] [] None None; OpAddChar [2] None [] [] None None; OpAddChar [3] None [] [] None None;
          OpAddVariant [1] (mkVariant [3] None None None None []);
          OpAddVariant [2] (mkVariant [3] None None None None [])].
  exists [[[1]; [3]]; [[2]; [3]]], [[1]; [3]], [[2]; [3]], [3].
  cbv zeta. split; [vm_compute; reflexivity|]. simpl. repeat split; auto. discriminate.
Qed.
