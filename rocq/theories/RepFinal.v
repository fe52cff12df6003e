(** Wrappers of the repertoire lemmas in the form used by the property
    theorems. *)
From Verif Require Import Base BaseFacts CharModel RepSpec RepProofs VariantProofs IterProofs RangeProofs VarSetSpec VarSetProofs.

Lemma overlap_detected : forall r f l rf rl cm rs tg w nw,
  reachable r -> f < l -> In (rf, rl) (rep_ranges r) -> f <= rl -> rf <= l -> (rf <= f \/ l <= rl) ->
  exists r', rep_add_range r f l cm rs tg w nw false = (r', Raise (RangeAlreadyExists f l)) /\
    (forall d, lookup r' d = lookup r d) /\ Permutation (rep_ranges r') (rep_ranges r).
Proof.
  intros r f l rf rl cm rs tg w nw Hr Hfl Hin H1 H2 H3. apply reachable_wf in Hr.
  pose proof (step_refines r (abst r) (OpAddRange f l cm rs tg w nw false) (agree_abst r Hr)) as HS.
  pose proof (rep_add_range_spec r f l cm rs tg w nw false) as HP.
  unfold rep_step, a_step in HS. destruct (N.ltb_spec f l) as [_|]; [|lia].
  assert (He : existsb (detected f l) (a_ranges (abst r)) = true).
  { apply existsb_exists. exists (rf, rl). split; [exact Hin|]. simpl.
    rewrite !andb_true_iff, orb_true_iff, !N.leb_le. tauto. }
  rewrite He in HS. cbn [negb andb] in HS.
  destruct (rep_add_range r f l cm rs tg w nw false) as [r' x]. destruct HS as [_ HS].
  specialize (HP r' x Hr eq_refl).
  destruct x as [u|e]; simpl in HS; [discriminate|]. injection HS as HS. subst e.
  exists r'. split; auto.
  destruct HP as [[HP _]|[[_ HP]|[c [HP _]]]]; try discriminate. exact HP.
Qed.

Lemma range_conflict_refused : forall r f l c cm rs tg w nw sk,
  reachable r -> f <= c <= l -> lookup r [c] <> None ->
  exists e, snd (rep_add_range r f l cm rs tg w nw sk) = Raise e.
Proof.
  intros r f l c cm rs tg w nw sk Hr Hc Hl. apply reachable_wf in Hr.
  pose proof (rep_add_range_spec r f l cm rs tg w nw sk) as HP.
  destruct (rep_add_range r f l cm rs tg w nw sk) as [r' x]. specialize (HP r' x Hr eq_refl).
  destruct x as [u|e]; simpl; [|eauto]. destruct HP as [_ [HP _]]. specialize (HP c Hc). congruence.
Qed.

Lemma iter_spec_partial : forall r, reachable r ->
  StronglySorted iter_order (rep_iter r) /\
  NoDup (map ch_cp (rep_iter r)) /\
  (forall c, In c (rep_iter r) -> lookup r (ch_cp c) = Some c) /\
  (forall c, lookup r (ch_cp c) = Some c -> is_range c = false -> In c (rep_iter r)) /\
  (ranges_intact r -> forall c, In c (rep_iter r) <->
     lookup r (ch_cp c) = Some c /\ (forall f l, ch_kind c = KRange f l -> ch_cp c = [f])).
Proof.
  intros r Hr. apply reachable_wf in Hr. destruct (iter_general r Hr) as [H1 [H2 [H3 H4]]].
  assert (Hlk : forall c, In c (all_chars r) <-> lookup r (ch_cp c) = Some c).
  { intro c. rewrite lookup_lk. apply in_all_chars_lk. exact Hr. }
  split; auto. split; auto. split; [|split].
  - intros c Hc. apply Hlk. auto.
  - intros c Hc. apply H4. apply Hlk. exact Hc.
  - intros Hi c. rewrite <- Hlk. apply iter_intact; auto.
Qed.

(** What iteration accounts for when ranges are intact: the code points
    present are those of the yielded single entries and sequences plus the
    full span of each yielded range. *)
Lemma iter_accounts : forall r, reachable r -> ranges_intact r ->
  forall d, lookup r d <> None <->
    exists c, In c (rep_iter r) /\
      match ch_kind c with
      | KRange f l => exists x, d = [x] /\ f <= x <= l
      | _ => d = ch_cp c
      end.
Proof.
  intros r Hr Hi d. destruct (iter_spec_partial r Hr) as [_ [_ [_ [_ H]]]]. specialize (H Hi).
  apply reachable_wf in Hr. split.
  - intro Hd. destruct (lookup r d) as [c|] eqn:E; [|congruence].
    assert (Hcp : ch_cp c = d) by (rewrite lookup_lk in E; eapply lk_cp; eauto).
    destruct (ch_kind c) as [| |f l] eqn:Ek.
    + exists c. rewrite Ek. split; auto. apply H. rewrite Hcp. split; auto. congruence.
    + exists c. rewrite Ek. split; auto. apply H. rewrite Hcp. split; auto. congruence.
    + rewrite lookup_lk in E. assert (Hin : In c (all_chars r)) by (eapply lk_in_all; eauto).
      apply all_chars_bucket in Hin; auto. destruct Hin as [k Hk].
      destruct (range_at_bucket r k c f l Hr Hk Ek) as [H1 [H2 [H3 H4]]].
      assert (Hff : f <= f <= l) by lia.
      destruct (Hi c f l (lk_in_all r d c Hr E) Ek f Hff) as [e [He1 He2]].
      exists e. rewrite He2.
      assert (Hecp : ch_cp e = [f]) by (rewrite lookup_lk in He1; eapply lk_cp; eauto).
      split; [apply H; rewrite Hecp; split; auto|].
      * intros f' l' Hk'. rewrite He2 in Hk'. injection Hk' as Hk' _. congruence.
      * exists k. split; [congruence|exact H2].
  - intros [c [Hc Hd]]. apply H in Hc. destruct Hc as [Hc1 Hc2].
    destruct (ch_kind c) as [| |f l] eqn:Ek.
    + subst d. congruence.
    + subst d. congruence.
    + destruct Hd as [x [Hd Hx]]. subst d.
      assert (Hin : In c (all_chars r)) by (apply in_all_chars_lk; auto; rewrite <- lookup_lk; exact Hc1).
      destruct (Hi c f l Hin Ek x Hx) as [e [He _]]. congruence.
Qed.

Lemma variants_of_entry : forall r c ch, reachable r -> lookup r c = Some ch ->
  NoDup (map vkey (get_variants ch)) /\
  StronglySorted (fun a b => cps_leb (v_cp a) (v_cp b) = true) (get_variants ch) /\
  (is_range ch = true -> get_variants ch = []).
Proof.
  intros r c ch Hr H. apply reachable_wf in Hr. rewrite lookup_lk in H.
  assert (Hw : wf_char ch) by (eapply lk_wf; eauto).
  split; [apply get_variants_NoDup; exact Hw|]. split; [apply get_variants_sorted; exact Hw|].
  unfold is_range. destruct Hw as [_ Hk]. destruct (ch_kind ch); try discriminate. intros _.
  destruct Hk as [_ [_ Hk]]. unfold get_variants. rewrite Hk. reflexivity.
Qed.

Lemma variant_add_spec : forall r c ch v, reachable r -> lookup r c = Some ch ->
  is_range ch = false -> v_cp v <> [] ->
  (In (vkey v) (map vkey (get_variants ch)) /\
   rep_add_variant r c v = (r, Raise (VariantAlreadyExists c (v_cp v))))
  \/
  (~ In (vkey v) (map vkey (get_variants ch)) /\
   exists r' ch', rep_add_variant r c v = (r', Ok tt) /\ lookup r' c = Some ch' /\
     (forall w, In w (get_variants ch') <-> w = v \/ In w (get_variants ch)) /\
     (forall d, d <> c -> lookup r' d = lookup r d)).
Proof.
  intros r c ch v Hr H Hk Hne. apply reachable_wf in Hr. rewrite lookup_lk in H.
  assert (Hw : wf_char ch) by (eapply lk_wf; eauto).
  assert (Hcp : ch_cp ch = c) by (eapply lk_cp; eauto).
  assert (Hg : rep_get_char r c = Ok ch).
  { destruct c as [|x t]; [discriminate|]. rewrite get_char_lk by discriminate. rewrite H. reflexivity. }
  destruct (add_variant_cases ch v Hw Hk Hne) as [[H1 H2]|[H1 [ch' [H2 H3]]]].
  - left. split; auto. unfold rep_add_variant. rewrite Hg, H2, Hcp. reflexivity.
  - right. split; auto. exists (rep_put r c ch'), ch'. unfold rep_add_variant. rewrite Hg, H2.
    split; auto. destruct (char_add_variant_wf ch v ch' Hw H2) as [Hw' Hcp'].
    assert (Hcp2 : ch_cp ch' = c) by congruence.
    assert (Hnn : lk r c <> None) by (rewrite H; discriminate).
    split; [|split; auto].
    + rewrite lookup_lk, lk_put; auto. rewrite cps_eqb_refl. reflexivity.
    + intros d Hd. rewrite !lookup_lk, lk_put; auto. apply cps_eqb_neq in Hd. rewrite Hd. reflexivity.
Qed.

Lemma variant_del_spec : forall r c ch vcp w nw, reachable r -> lookup r c = Some ch ->
  is_range ch = false -> vcp <> [] ->
  exists r' ch' b, rep_del_variant r c vcp w nw = (r', Ok b) /\ lookup r' c = Some ch' /\
    (b = true <-> In (vcp, w, nw) (map vkey (get_variants ch))) /\
    (forall u, In u (get_variants ch') <-> In u (get_variants ch) /\ vkey u <> (vcp, w, nw)) /\
    (b = false -> ch' = ch) /\
    (forall d, d <> c -> lookup r' d = lookup r d).
Proof.
  intros r c ch vcp w nw Hr H Hk Hne. apply reachable_wf in Hr. rewrite lookup_lk in H.
  assert (Hw : wf_char ch) by (eapply lk_wf; eauto).
  assert (Hcp : ch_cp ch = c) by (eapply lk_cp; eauto).
  assert (Hg : rep_get_char r c = Ok ch).
  { destruct c as [|x t]; [discriminate|]. rewrite get_char_lk by discriminate. rewrite H. reflexivity. }
  destruct (del_variant_cases ch vcp w nw Hw Hk Hne) as [ch' [b [H1 [H2 [H3 H4]]]]].
  exists (rep_put r c ch'), ch', b. unfold rep_del_variant. rewrite Hg, H1.
  destruct (char_del_variant_wf ch vcp w nw ch' b Hw H1) as [Hw' Hcp'].
  assert (Hcp2 : ch_cp ch' = c) by congruence.
  assert (Hnn : lk r c <> None) by (rewrite H; discriminate).
  split; auto. split; [|split; [|split; [|split]]]; auto.
  - rewrite lookup_lk, lk_put; auto. rewrite cps_eqb_refl. reflexivity.
  - intros d Hd. rewrite !lookup_lk, lk_put; auto. apply cps_eqb_neq in Hd. rewrite Hd. reflexivity.
Qed.

Lemma variant_range_refused : forall r c ch v vcp w nw, lookup r c = Some ch -> is_range ch = true ->
  rep_add_variant r c v = (r, Raise (LGRFormatException RANGE_NO_CHILD)) /\
  rep_del_variant r c vcp w nw = (r, Raise (LGRFormatException RANGE_NO_CHILD)).
Proof.
  intros r c ch v vcp w nw H Hk. unfold lookup in H. destruct (rep_get_char r c) as [ch0|e] eqn:E; [|discriminate].
  injection H as H. subst ch0. unfold rep_add_variant, rep_del_variant. rewrite E.
  destruct (range_no_variants ch v vcp w nw Hk) as [H1 H2]. rewrite H1, H2. auto.
Qed.
