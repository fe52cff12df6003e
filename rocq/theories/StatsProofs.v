From Coq Require Import Sorting.Sorted Permutation.
From Verif Require Import Base BaseFacts CharModel RepSpec RepProofs RangeProofs VariantProofs IterProofs UtilsModel UtilsSpec UtilsProofs RefModel RefProofs LgrModel LgrSpec LgrProofs LgrReach LgrRange LgrInv LgrTags LgrRefs LgrMirror VarSetSpec VarSetProofs ValidateModel ValidateSpec ValidateProofs.
Open Scope string_scope.
Open Scope list_scope.

(** ** Sums *)
Lemma sumN_app : forall A (f : A -> N) a b, sumN f (a ++ b) = sumN f a + sumN f b.
Proof. intros A f a b. unfold sumN. induction a as [|x a IH]; cbn [fold_right app]; [reflexivity|]. rewrite IH. lia. Qed.
Lemma sumN_perm : forall A (f : A -> N) a b, Permutation a b -> sumN f a = sumN f b.
Proof. intros A f a b H. unfold sumN. induction H; cbn [fold_right]; lia. Qed.
Lemma sumN_ext : forall A (f h : A -> N) l, (forall x, In x l -> f x = h x) -> sumN f l = sumN h l.
Proof.
  intros A f h l. unfold sumN. induction l as [|x l IH]; intros H; cbn [fold_right]; [reflexivity|].
  rewrite H by (left; reflexivity). rewrite IH; [reflexivity|]. intros y Hy. apply H. right. exact Hy.
Qed.
Lemma sumN_flat : forall A B (f : B -> N) (h : A -> list B) l, sumN f (flat_map h l) = sumN (fun x => sumN f (h x)) l.
Proof.
  intros A B f h l. induction l as [|x l IH]; [reflexivity|]. cbn [flat_map]. rewrite sumN_app, IH. reflexivity.
Qed.
Lemma sumN_one : forall A (l : list A), sumN (fun _ => 1) l = N.of_nat (length l).
Proof. intros A l. unfold sumN. induction l as [|x l IH]; cbn [fold_right length]; [reflexivity|]. rewrite IH. lia. Qed.
Lemma sumN_map : forall A B (f : B -> N) (h : A -> B) l, sumN f (map h l) = sumN (fun x => f (h x)) l.
Proof. intros A B f h l. unfold sumN. induction l as [|x l IH]; cbn [fold_right map]; [reflexivity|]. rewrite IH. reflexivity. Qed.
Lemma sumN_const : forall A (n : N) (l : list A), sumN (fun _ => n) l = N.of_nat (length l) * n.
Proof. intros A n l. unfold sumN. induction l as [|x l IH]; cbn [fold_right length]; [reflexivity|]. rewrite IH. lia. Qed.
Lemma sumN_bool : forall A (p : A -> bool) l, sumN (fun x => if p x then 1 else 0) l = countN p l.
Proof.
  intros A p l. unfold countN. induction l as [|x l IH]; [reflexivity|]. unfold sumN in *. cbn [fold_right filter]. rewrite IH.
  destruct (p x); cbn [length]; lia.
Qed.
Lemma countN_flat : forall A B (p : B -> bool) (h : A -> list B) l, countN p (flat_map h l) = sumN (fun x => countN p (h x)) l.
Proof.
  intros. rewrite <- sumN_bool, sumN_flat. apply sumN_ext. intros x _. apply sumN_bool.
Qed.

(** ** Counters *)
Definition cval {K} (eqb : K -> K -> bool) (d : dict K N) (k : K) : N := match dget eqb k d with Some n => n | None => 0 end.
Lemma count_add_val : forall K (eqb : K -> K -> bool) (Heq : forall a b, eqb a b = true <-> a = b) n ks d k,
  cval eqb (fold_left (count_add eqb n) ks d) k = cval eqb d k + n * countN (eqb k) ks.
Proof.
  intros K eqb Heq n ks. induction ks as [|x ks IH]; intros d k; cbn [fold_left].
  - unfold countN. cbn. lia.
  - rewrite IH. unfold countN. cbn [filter]. unfold count_add, cval. destruct (dget eqb x d) as [m|] eqn:E.
    + rewrite (dget_dset _ Heq). destruct (eqb k x) eqn:Ek.
      * apply Heq in Ek. subst x. rewrite E. cbn [length]. lia.
      * lia.
    + rewrite (dget_dset _ Heq). destruct (eqb k x) eqn:Ek.
      * apply Heq in Ek. subst x. rewrite E. cbn [length]. lia.
      * lia.
Qed.
Definition cpos {K} (eqb : K -> K -> bool) (d : dict K N) : Prop := forall k n, dget eqb k d = Some n -> 0 < n.
Lemma count_add_pos : forall K (eqb : K -> K -> bool) (Heq : forall a b, eqb a b = true <-> a = b) n ks d, 0 < n ->
  cpos eqb d -> cpos eqb (fold_left (count_add eqb n) ks d).
Proof.
  intros K eqb Heq n ks. induction ks as [|x ks IH]; intros d Hn Hd; cbn [fold_left]; [exact Hd|].
  apply IH; [exact Hn|]. intros k m H. unfold count_add in H. destruct (dget eqb x d) as [m0|] eqn:E;
    rewrite (dget_dset _ Heq) in H; destruct (eqb k x); try (injection H as H; subst; lia); eapply Hd; eauto.
Qed.
Lemma cpos_counted : forall K (eqb : K -> K -> bool) d k, cpos eqb d -> dget eqb k d = counted (cval eqb d k).
Proof.
  intros K eqb d k H. unfold counted, cval. destruct (dget eqb k d) as [n|] eqn:E; [|reflexivity].
  specialize (H k n E). destruct (N.eqb_spec n 0); [lia|reflexivity].
Qed.

(** ** What the loop computes *)
Definition rlen (c : char) : N := match ch_kind c with KRange f l => l - f + 1 | _ => 1 end.
Definition nvars (c : char) : N := N.of_nat (length (dedup cps_eqb (map v_cp (get_variants c)))).
Definition seqlen (c : char) : N := if is_seq c then N.of_nat (length (ch_cp c)) else 0.
Definition rangelen (c : char) : N := if is_range c then rlen c else 0.

Lemma stats_loop : forall l s,
  let s' := fold_left stats_step l s in
  st_codepoints s' = st_codepoints s + sumN rlen l /\
  st_ranges s' = st_ranges s + countN is_range l /\
  st_sequences s' = st_sequences s + countN is_seq l /\
  st_with_variants s' = st_with_variants s + countN (fun c => N.ltb 0 (vset c)) l /\
  st_mappings s' = st_mappings s + sumN nvars l /\
  (forall t, cval ostring_eqb (st_by_type s') t = cval ostring_eqb (st_by_type s) t + sumN (fun c => countN (ostring_eqb t) (map v_type (get_variants c))) l) /\
  (forall t, cval String.eqb (st_by_tag s') t = cval String.eqb (st_by_tag s) t + sumN (fun c => rlen c * countN (String.eqb t) (ch_tags c)) l) /\
  (cpos ostring_eqb (st_by_type s) -> cpos ostring_eqb (st_by_type s')) /\
  (cpos String.eqb (st_by_tag s) -> cpos String.eqb (st_by_tag s')).
Proof.
  induction l as [|c l IH]; intros s s'; unfold s'; cbn [fold_left].
  - unfold sumN, countN. cbn [fold_right filter length]. do 5 (split; [lia|]). split; [intro; lia|]. split; [intro; lia|]. auto.
  - destruct (IH (stats_step s c)) as [H1 [H2 [H3 [H4 [H5 [H6 [H7 [H8 H9]]]]]]]].
    rewrite H1, H2, H3, H4, H5. clear H1 H2 H3 H4 H5.
    assert (Hr : 0 < rlen c) by (unfold rlen; destruct (ch_kind c); lia).
    unfold countN, sumN. cbn [fold_right filter].
    cbn [stats_step st_codepoints st_ranges st_sequences st_with_variants st_mappings].
    fold (rlen c). fold (vset c). fold (nvars c).
    split; [lia|]. split; [destruct (is_range c); cbn [length]; lia|]. split; [destruct (is_seq c); cbn [length]; lia|].
    split; [destruct (N.ltb 0 (vset c)); cbn [length]; lia|]. split; [lia|].
    split; [|split; [|split]].
    + intro t. rewrite H6. cbn [stats_step st_by_type]. rewrite (count_add_val _ _ ostring_eqb_eq). unfold countN, sumN. lia.
    + intro t. rewrite H7. cbn [stats_step st_by_tag]. fold (rlen c). rewrite (count_add_val _ _ string_eqb_iff). unfold countN, sumN. lia.
    + intro H. apply H8. cbn [stats_step st_by_type]. apply (count_add_pos _ _ ostring_eqb_eq); [lia|exact H].
    + intro H. apply H9. cbn [stats_step st_by_tag]. fold (rlen c). apply (count_add_pos _ _ string_eqb_iff); [exact Hr|exact H].
Qed.
Definition maxN (f : char -> N) (l : list char) : N := fold_right (fun c m => N.max (f c) m) 0 l.
Lemma stats_max : forall l s,
  let s' := fold_left stats_step l s in
  st_largest_range_len s' = N.max (st_largest_range_len s) (maxN rangelen l) /\
  st_largest_sequence_len s' = N.max (st_largest_sequence_len s) (maxN seqlen l) /\
  st_largest_set s' = N.max (st_largest_set s) (maxN vset l).
Proof.
  induction l as [|c l IH]; intros s s'; unfold s'; cbn [fold_left maxN fold_right].
  - split; [lia|]. split; lia.
  - destruct (IH (stats_step s c)) as [H1 [H2 H3]]. rewrite H1, H2, H3.
    cbn [stats_step st_largest_range_len st_largest_sequence_len st_largest_set]. fold (rlen c). fold (vset c).
    unfold maxN. split; [|split].
    + unfold rangelen at 2. destruct (is_range c); cbn [andb]; [|lia]. destruct (N.ltb_spec (st_largest_range_len s) (rlen c)); lia.
    + unfold seqlen at 2. destruct (is_seq c); cbn [andb]; [|lia]. destruct (N.ltb_spec (st_largest_sequence_len s) (N.of_nat (length (ch_cp c)))); lia.
    + lia.
Qed.
(** The witnesses recorded next to the two lengths. *)
Lemma stats_witness : forall l s,
  let s' := fold_left stats_step l s in
  (match st_largest_range s with None => st_largest_range_len s = 0 | Some c => rangelen c = st_largest_range_len s /\ 0 < rangelen c end ->
   match st_largest_range s' with None => st_largest_range_len s' = 0 | Some c => (st_largest_range s = Some c \/ In c l) /\ rangelen c = st_largest_range_len s' /\ 0 < rangelen c end) /\
  (match st_largest_sequence s with None => st_largest_sequence_len s = 0 | Some c => seqlen c = st_largest_sequence_len s /\ 0 < seqlen c end ->
   match st_largest_sequence s' with None => st_largest_sequence_len s' = 0 | Some c => (st_largest_sequence s = Some c \/ In c l) /\ seqlen c = st_largest_sequence_len s' /\ 0 < seqlen c end).
Proof.
  induction l as [|c l IH]; intros s s'; unfold s'; cbn [fold_left].
  - split; [destruct (st_largest_range s)|destruct (st_largest_sequence s)]; auto.
  - destruct (IH (stats_step s c)) as [H1 H2]. split.
    + intro H. clear H2. cbn [stats_step st_largest_range st_largest_range_len] in H1. fold (rlen c) in H1.
      destruct (is_range c && N.ltb (st_largest_range_len s) (rlen c))%bool eqn:E.
      * apply andb_true_iff in E. destruct E as [E1 E2]. apply N.ltb_lt in E2.
        assert (Hc : rangelen c = rlen c) by (unfold rangelen; rewrite E1; reflexivity).
        assert (Hc0 : 0 < rangelen c) by lia. specialize (H1 (conj Hc Hc0)). destruct (st_largest_range (fold_left stats_step l (stats_step s c))) as [d|]; [|exact H1].
        destruct H1 as [[H1|H1] H3]; [injection H1 as H1; subst d; split; [right; left; reflexivity|exact H3]|split; [right; right; exact H1|exact H3]].
      * specialize (H1 H). destruct (st_largest_range (fold_left stats_step l (stats_step s c))) as [d|]; [|exact H1].
        destruct H1 as [[H1|H1] H3]; split; auto. right. right. exact H1.
    + intro H. clear H1. cbn [stats_step st_largest_sequence st_largest_sequence_len] in H2.
      destruct (is_seq c && N.ltb (st_largest_sequence_len s) (N.of_nat (length (ch_cp c))))%bool eqn:E.
      * apply andb_true_iff in E. destruct E as [E1 E2]. apply N.ltb_lt in E2.
        assert (Hc : seqlen c = N.of_nat (length (ch_cp c))) by (unfold seqlen; rewrite E1; reflexivity).
        assert (Hc0 : 0 < seqlen c) by lia. specialize (H2 (conj Hc Hc0)). destruct (st_largest_sequence (fold_left stats_step l (stats_step s c))) as [d|]; [|exact H2].
        destruct H2 as [[H2|H2] H3]; [injection H2 as H2; subst d; split; [right; left; reflexivity|exact H3]|split; [right; right; exact H2|exact H3]].
      * specialize (H2 H). destruct (st_largest_sequence (fold_left stats_step l (stats_step s c))) as [d|]; [|exact H2].
        destruct H2 as [[H2|H2] H3]; split; auto. right. right. exact H2.
Qed.
Lemma maxN_is_max : forall f l, is_max f l (maxN f l).
Proof.
  intros f l. unfold is_max, maxN. induction l as [|c l [IH1 IH2]]; cbn [fold_right]; [split; [intros x []|left; reflexivity]|]. split.
  - intros x [Hx|Hx]; [subst; lia|]. specialize (IH1 x Hx). lia.
  - destruct (N.le_gt_cases (f c) (fold_right (fun c m => N.max (f c) m) 0 l)) as [H|H].
    + rewrite N.max_r by exact H. destruct IH2 as [H2|[x [H2 H3]]]; [left; exact H2|right; exists x; split; [right; exact H2|exact H3]].
    + rewrite N.max_l by lia. right. exists c. split; [left; reflexivity|reflexivity].
Qed.

(** ** Entries and the items of the iteration *)
Definition members (c : char) : list char :=
  match ch_kind c with
  | KRange f l => map (fun x => mkChar [x] (KRange f l) (ch_comment c) (ch_refs c) (ch_tags c) (ch_when c) (ch_not_when c) []) (nrange f l)
  | _ => [c]
  end.
Lemma rinv_intact : forall r, wf_rep r -> rinv r -> ranges_intact r.
Proof.
  intros r Hwf Hi c f l Hc Hk x Hx. apply in_all_chars_lk in Hc; [|exact Hwf].
  pose proof (ri_reg r Hi _ _ _ _ Hc Hk) as Hreg. destruct (ri_mem r Hi f l Hreg) as [_ [p Hp]].
  eexists. rewrite lookup_lk. split; [apply Hp; exact Hx|reflexivity].
Qed.
Lemma member_of : forall r c f l, wf_rep r -> rinv r -> lk r (ch_cp c) = Some c -> ch_kind c = KRange f l ->
  forall x, f <= x <= l -> lk r [x] = Some (mkChar [x] (KRange f l) (ch_comment c) (ch_refs c) (ch_tags c) (ch_when c) (ch_not_when c) []).
Proof.
  intros r c f l Hwf Hi Hc Hk x Hx. pose proof (ri_reg r Hi _ _ _ _ Hc Hk) as Hreg. destruct (ri_mem r Hi f l Hreg) as [_ [p Hp]].
  pose proof (lk_wf _ _ _ Hwf Hc) as [_ Hw]. rewrite Hk in Hw. destruct Hw as [_ [[y [Hy1 Hy2]] _]].
  rewrite Hy1 in Hc. pose proof (Hp y Hy2) as Hpy. rewrite Hc in Hpy. injection Hpy as Hpy. rewrite Hp by exact Hx. rewrite Hpy. reflexivity.
Qed.
Lemma members_In : forall r c d, wf_rep r -> rinv r -> lk r (ch_cp c) = Some c -> In d (members c) ->
  lk r (ch_cp d) = Some d /\ (ch_kind c = ch_kind d) /\ (is_range c = false -> d = c) /\ ch_tags d = ch_tags c /\
  (is_range c = true -> get_variants d = []).
Proof.
  intros r c d Hwf Hi Hc Hd. unfold members in Hd. unfold is_range. destruct (ch_kind c) as [| |f l] eqn:Hk.
  - destruct Hd as [Hd|[]]. subst d. rewrite Hk. repeat (split; [auto|]). discriminate.
  - destruct Hd as [Hd|[]]. subst d. rewrite Hk. repeat (split; [auto|]). discriminate.
  - apply in_map_iff in Hd. destruct Hd as [x [Hd Hx]]. subst d. cbn [ch_cp ch_kind ch_tags]. apply nrange_In in Hx.
    split; [eapply member_of; eauto|]. split; [reflexivity|]. split; [discriminate|]. split; [reflexivity|]. intros _. reflexivity.
Qed.
Lemma members_perm : forall r es, wf_rep r -> rinv r -> enumerates r es -> Permutation (flat_map members (rep_iter r)) es.
Proof.
  intros r es Hwf Hi [He1 He2]. pose proof (rinv_intact r Hwf Hi) as Hint. pose proof (iter_intact r Hwf Hint) as Hit.
  destruct (iter_general r Hwf) as [_ [Hnd [Hsub _]]].
  assert (Hlk : forall c, In c (rep_iter r) -> lk r (ch_cp c) = Some c) by (intros c Hc; apply in_all_chars_lk; auto).
  apply NoDup_Permutation; [|exact He1|].
  - apply NoDup_flat_map_disjoint.
    + apply NoDup_map_inv in Hnd. exact Hnd.
    + intros a _. unfold members. destruct (ch_kind a) as [| |f l]; try (constructor; [intros []|constructor]).
      apply (NoDup_map_inv' _ _ (fun d => match ch_cp d with x :: _ => x | [] => 0 end)). rewrite map_map. cbn [ch_cp]. rewrite map_id. apply nrange_NoDup.
    + intros a b x Ha Hb Hxa Hxb. destruct (members_In r a x Hwf Hi (Hlk a Ha) Hxa) as [Hx [Hka [Hna _]]].
      destruct (members_In r b x Hwf Hi (Hlk b Hb) Hxb) as [_ [Hkb [Hnb _]]].
      destruct (is_range a) eqn:Ea.
      * unfold is_range in Ea. destruct (ch_kind a) as [| |f l] eqn:Kx; try discriminate.
        apply Hit in Ha. apply Hit in Hb. destruct Ha as [Ha1 Ha2]. destruct Hb as [Hb1 Hb2]. specialize (Ha2 _ _ Kx).
        assert (Kb : ch_kind b = KRange f l) by congruence. specialize (Hb2 _ _ Kb).
        apply in_all_chars_lk in Ha1; [|exact Hwf]. apply in_all_chars_lk in Hb1; [|exact Hwf]. congruence.
      * assert (Eb : is_range b = false) by (unfold is_range in *; rewrite Hkb, <- Hka; exact Ea).
        rewrite <- (Hna eq_refl), <- (Hnb Eb). reflexivity.
  - intro d. rewrite in_flat_map, He2, lookup_lk. split.
    + intros [c [Hc Hd]]. apply (members_In r c d Hwf Hi (Hlk c Hc) Hd).
    + intro Hd. destruct (ch_kind d) as [| |f l] eqn:Hk.
      * exists d. split; [apply Hit; split; [apply in_all_chars_lk; auto|congruence]|]. unfold members. rewrite Hk. left. reflexivity.
      * exists d. split; [apply Hit; split; [apply in_all_chars_lk; auto|congruence]|]. unfold members. rewrite Hk. left. reflexivity.
      * pose proof (ri_reg r Hi _ _ _ _ Hd Hk) as Hreg. destruct (ri_mem r Hi f l Hreg) as [Hfl [p Hp]].
        assert (Hff : f <= f <= l) by lia. pose proof (Hp f Hff) as Hf.
        eexists. split.
        -- apply Hit. split; [apply in_all_chars_lk; [exact Hwf|]; rewrite (lk_cp _ _ _ Hf); exact Hf|]. intros f' l' K. cbn in K. injection K as K1 K2. subst. reflexivity.
        -- unfold members. cbn [ch_kind ch_comment ch_refs ch_tags ch_when ch_not_when]. apply in_map_iff.
           pose proof (lk_wf _ _ _ Hwf Hd) as [_ Hw]. rewrite Hk in Hw. destruct Hw as [_ [[y [Hy1 Hy2]] _]].
           exists y. split; [|apply nrange_In; exact Hy2]. rewrite Hy1 in Hd. rewrite (Hp y Hy2) in Hd. injection Hd as Hd. exact Hd.
Qed.
Lemma all_chars_enumerates : forall r, wf_rep r -> enumerates r (all_chars r).
Proof.
  intros r Hwf. split; [apply (NoDup_map_inv' _ _ ch_cp); apply all_chars_NoDup; exact Hwf|].
  intro ch. rewrite lookup_lk. apply in_all_chars_lk. exact Hwf.
Qed.

Lemma nrange_len : forall f l, f <= l -> N.of_nat (length (nrange f l)) = l - f + 1.
Proof.
  intros f l H. unfold nrange. destruct (N.leb_spec f l); [|lia]. rewrite map_length, seq_length. lia.
Qed.
Lemma sum_members : forall r (w : char -> N) (h : char -> N) es, wf_rep r -> rinv r -> enumerates r es ->
  (forall c, lk r (ch_cp c) = Some c -> w c = sumN h (members c)) ->
  sumN w (rep_iter r) = sumN h es.
Proof.
  intros r w h es Hwf Hi He H. rewrite <- (sumN_perm _ h _ _ (members_perm r es Hwf Hi He)), sumN_flat.
  apply sumN_ext. intros c Hc. apply H. destruct (iter_general r Hwf) as [_ [_ [Hsub _]]]. apply in_all_chars_lk; auto.
Qed.
(** A weight that vanishes on members of ranges. *)
Lemma sum_members0 : forall r (w : char -> N) es, wf_rep r -> rinv r -> enumerates r es ->
  (forall c, lk r (ch_cp c) = Some c -> is_range c = true -> w c = 0) ->
  sumN w (rep_iter r) = sumN w es.
Proof.
  intros r w es Hwf Hi He H. apply sum_members; auto. intros c Hc. destruct (is_range c) eqn:E.
  - rewrite H by auto. symmetry. rewrite (sumN_ext _ w (fun _ => 0)); [rewrite sumN_const; lia|].
    intros d Hd. destruct (members_In r c d Hwf Hi Hc Hd) as [Hd1 [Hk _]]. apply H; [exact Hd1|]. unfold is_range in *. rewrite <- Hk. exact E.
  - unfold members, is_range in *. destruct (ch_kind c); try discriminate; unfold sumN; cbn [fold_right]; lia.
Qed.
Lemma vset_range : forall r c, wf_rep r -> lk r (ch_cp c) = Some c -> is_range c = true -> vset c = 0.
Proof. intros r c Hwf Hc E. unfold vset. rewrite (range_get_variants c); [reflexivity|eapply lk_wf; eauto|exact E]. Qed.
Lemma vset_pos : forall c, N.ltb 0 (vset c) = match get_variants c with [] => false | _ => true end.
Proof.
  intro c. unfold vset. destruct (get_variants c) as [|v l] eqn:E; [reflexivity|]. apply N.ltb_lt.
  destruct (dedup cps_eqb (map v_cp (v :: l) ++ [ch_cp c])) as [|x t] eqn:D; [|cbn [length]; lia]. exfalso.
  assert (H : In (v_cp v) (dedup cps_eqb (map v_cp (v :: l) ++ [ch_cp c]))) by (apply (dedup_In _ _ cps_eqb_eq); left; reflexivity).
  rewrite D in H. contradiction.
Qed.
Lemma is_seq_len : forall c, wf_char c -> is_seq c = Nat.ltb 1 (length (ch_cp c)).
Proof.
  intros c [_ H]. unfold is_seq. destruct (ch_kind c) as [| |f l].
  - destruct H as [x H]. rewrite H. reflexivity.
  - destruct H as [x [y [t H]]]. rewrite H. reflexivity.
  - destruct H as [_ [[x [H _]] _]]. rewrite H. reflexivity.
Qed.
Lemma countN_ext : forall A (p q : A -> bool) l, (forall x, In x l -> p x = q x) -> countN p l = countN q l.
Proof. intros. rewrite <- !sumN_bool. apply sumN_ext. intros x Hx. rewrite H by exact Hx. reflexivity. Qed.
Lemma is_max_ext : forall A (f h : A -> N) l n, (forall x, In x l -> f x = h x) -> is_max f l n -> is_max h l n.
Proof.
  intros A f h l n H [H1 H2]. split; [intros x Hx; rewrite <- H by exact Hx; auto|].
  destruct H2 as [H2|[x [H2 H3]]]; [auto|]. right. exists x. rewrite <- H by exact H2. auto.
Qed.
Lemma is_max_members0 : forall r (w : char -> N) es n, wf_rep r -> rinv r -> enumerates r es ->
  (forall c, lk r (ch_cp c) = Some c -> is_range c = true -> w c = 0) ->
  is_max w (rep_iter r) n -> is_max w es n.
Proof.
  intros r w es n Hwf Hi [_ He] H [H1 H2]. destruct (iter_general r Hwf) as [_ [_ [Hsub Hnr]]]. split.
  - intros c Hc. apply He in Hc. rewrite lookup_lk in Hc. destruct (is_range c) eqn:E; [rewrite H by auto; lia|].
    apply H1. apply Hnr; [apply in_all_chars_lk; auto|exact E].
  - destruct H2 as [H2|[c [H2 H3]]]; [auto|]. right. exists c. split; [|exact H3]. apply He. rewrite lookup_lk. apply in_all_chars_lk; auto.
Qed.

Definition range_of (c : char) : N * N := match ch_kind c with KRange f l => (f, l) | _ => (0, 0) end.
Lemma range_items_perm : forall r, wf_rep r -> rinv r -> Permutation (map range_of (filter is_range (rep_iter r))) (rep_ranges r).
Proof.
  intros r Hwf Hi. pose proof (rinv_intact r Hwf Hi) as Hint. pose proof (iter_intact r Hwf Hint) as Hit.
  destruct (iter_general r Hwf) as [_ [Hnd [Hsub _]]].
  assert (Hin : forall c, In c (filter is_range (rep_iter r)) -> exists f l, ch_kind c = KRange f l /\ ch_cp c = [f] /\ lk r [f] = Some c).
  { intros c Hc. apply filter_In in Hc. destruct Hc as [Hc Hr]. unfold is_range in Hr. destruct (ch_kind c) as [| |f l] eqn:Hk; try discriminate.
    exists f, l. pose proof (proj1 (Hit c) Hc) as [H1 H2]. rewrite <- (H2 f l Hk). split; [reflexivity|]. split; [reflexivity|]. apply in_all_chars_lk; auto. }
  apply NoDup_Permutation; [|exact (ri_nd r Hi)|].
  - apply NoDup_map_inv in Hnd. assert (Hnd2 : NoDup (filter is_range (rep_iter r))) by (apply NoDup_filter; exact Hnd).
    revert Hin Hnd2. generalize (filter is_range (rep_iter r)) as l. clear. induction l as [|c l IH]; intros Hin Hnd; cbn [map]; [constructor|].
    inversion Hnd; subst. constructor; [|apply IH; [intros d Hd; apply Hin; right; exact Hd|assumption]].
    intro H. apply in_map_iff in H. destruct H as [d [Hd1 Hd2]]. apply H1.
    destruct (Hin c (or_introl eq_refl)) as [f [l0 [K1 [K2 K3]]]]. destruct (Hin d (or_intror Hd2)) as [f' [l0' [K1' [K2' K3']]]].
    unfold range_of in Hd1. rewrite K1, K1' in Hd1. injection Hd1 as E1 E2. subst. rewrite K3 in K3'. injection K3' as K3'. subst. exact Hd2.
  - intros [f l]. rewrite in_map_iff. split.
    + intros [c [E Hc]]. destruct (Hin c Hc) as [f' [l' [K1 [K2 K3]]]]. unfold range_of in E. rewrite K1 in E. injection E as E1 E2. subst.
      eapply ri_reg; eauto.
    + intro H. destruct (ri_mem r Hi f l H) as [Hfl [p Hp]]. assert (Hff : f <= f <= l) by lia. pose proof (Hp f Hff) as Hf.
      eexists. split; [|apply filter_In; split; [apply Hit; split; [eapply lk_in_all; eauto|]|]]; [reflexivity| |reflexivity].
      intros f' l' K. cbn in K. injection K as K1 K2. subst. reflexivity.
Qed.

Theorem stats_spec : forall g es, tidy g -> enumerates (lg_rep g) es ->
  let s := generate_stats g in
  st_codepoints s = N.of_nat (length es) /\
  st_ranges s = N.of_nat (length (rep_ranges (lg_rep g))) /\
  st_sequences s = countN (fun c => Nat.ltb 1 (length (ch_cp c))) es /\
  st_with_variants s = countN (fun c => match get_variants c with [] => false | _ => true end) es /\
  (forall ps, NoDup ps -> (forall a b, In (a, b) ps <-> has_target (lg_rep g) a b) -> st_mappings s = N.of_nat (length ps)) /\
  (forall t, dget ostring_eqb t (st_by_type s) = counted (countN (ostring_eqb t) (map v_type (flat_map get_variants es)))) /\
  (forall t, dget String.eqb t (st_by_tag s) = counted (countN (String.eqb t) (flat_map ch_tags es))).
Proof.
  intros g es Ht He s. pose proof (lgr_reachable_wf g (tidy_reachable g Ht)) as Hwf. pose proof (tidy_rinv g Ht) as Hi.
  set (r := lg_rep g) in *. destruct (stats_loop (rep_iter r) stats0) as [H1 [H2 [H3 [H4 [H5 [H6 [H7 [H8 H9]]]]]]]].
  assert (Hes : forall c, In c es -> lk r (ch_cp c) = Some c) by (intros c Hc; rewrite <- lookup_lk; apply He; exact Hc).
  unfold s, generate_stats. fold r. split; [|split; [|split; [|split; [|split; [|split]]]]].
  - rewrite H1. cbn [stats0 st_codepoints]. rewrite <- sumN_one. rewrite N.add_0_l. apply sum_members; auto.
    intros c Hc. rewrite sumN_one. unfold rlen, members. destruct (ch_kind c) as [| |f l] eqn:Hk; try reflexivity.
    pose proof (lk_wf _ _ _ Hwf Hc) as [_ Hw]. rewrite Hk in Hw. rewrite map_length, nrange_len by lia. reflexivity.
  - rewrite H2. cbn [stats0 st_ranges]. unfold countN. rewrite <- (Permutation_length (range_items_perm r Hwf Hi)), map_length. lia.
  - rewrite H3. cbn [stats0 st_sequences]. rewrite N.add_0_l, <- sumN_bool. rewrite (sum_members0 r _ es Hwf Hi He).
    + rewrite sumN_bool. apply countN_ext. intros c Hc. apply is_seq_len. eapply lk_wf; eauto.
    + intros c _ Hr. unfold is_seq, is_range in *. destruct (ch_kind c); try discriminate. reflexivity.
  - rewrite H4. cbn [stats0 st_with_variants]. rewrite N.add_0_l, <- sumN_bool. rewrite (sum_members0 r _ es Hwf Hi He).
    + rewrite sumN_bool. apply countN_ext. intros c Hc. apply vset_pos.
    + intros c Hc Hr. rewrite (vset_range r c Hwf Hc Hr). reflexivity.
  - intros ps Hnd Hps. rewrite H5. cbn [stats0 st_mappings]. rewrite N.add_0_l. rewrite (sum_members0 r _ es Hwf Hi He).
    2:{ intros c Hc Hr. unfold nvars. rewrite (range_get_variants c); [reflexivity|eapply lk_wf; eauto|exact Hr]. }
    set (all := flat_map (fun c => map (pair (ch_cp c)) (dedup cps_eqb (map v_cp (get_variants c)))) es).
    assert (Hp : Permutation all ps).
    { apply NoDup_Permutation; [|exact Hnd|].
      - apply NoDup_flat_map_disjoint.
        + apply He.
        + intros c Hc. apply FinFun.Injective_map_NoDup; [intros x y E; injection E as E; exact E|]. apply (dedup_NoDup _ _ cps_eqb_eq).
        + intros a b x Ha Hb Hxa Hxb. apply in_map_iff in Hxa. apply in_map_iff in Hxb. destruct Hxa as [y [Y1 _]]. destruct Hxb as [z [Z1 _]].
          subst x. injection Z1 as Z1 _. pose proof (Hes a Ha) as La. pose proof (Hes b Hb) as Lb. congruence.
      - intros [a b]. rewrite Hps. unfold all. rewrite in_flat_map. split.
        + intros [c [Hc Hx]]. apply in_map_iff in Hx. destruct Hx as [y [Y1 Y2]]. injection Y1 as Y1 Y3. subst.
          apply (dedup_In _ _ cps_eqb_eq), in_map_iff in Y2. destruct Y2 as [v [V1 V2]]. exists v, c. split; [rewrite lookup_lk; auto|auto].
        + intros [v [c [C1 [C2 C3]]]]. rewrite lookup_lk in C1. pose proof (lk_cp _ _ _ C1) as Hcp. exists c. split; [apply He; rewrite lookup_lk, Hcp; exact C1|].
          apply in_map_iff. exists b. split; [rewrite Hcp; reflexivity|]. apply (dedup_In _ _ cps_eqb_eq), in_map_iff. eauto. }
    rewrite <- (Permutation_length Hp). unfold all. rewrite <- sumN_one, sumN_flat. apply sumN_ext. intros c _. rewrite sumN_one, map_length. reflexivity.
  - intro t. rewrite cpos_counted by (apply H8; intros k n H; discriminate). rewrite H6. f_equal. cbn [stats0 st_by_type]. unfold cval at 1. cbn [dget]. rewrite N.add_0_l.
    rewrite (sum_members0 r _ es Hwf Hi He).
    2:{ intros c Hc Hr. rewrite (range_get_variants c); [reflexivity|eapply lk_wf; eauto|exact Hr]. }
    rewrite map_flat_map, countN_flat. reflexivity.
  - intro t. rewrite cpos_counted by (apply H9; intros k n H; discriminate). rewrite H7. f_equal. cbn [stats0 st_by_tag]. unfold cval at 1. cbn [dget]. rewrite N.add_0_l.
    rewrite countN_flat. apply sum_members; auto. intros c Hc. rewrite (sumN_ext _ _ (fun _ => countN (String.eqb t) (ch_tags c))).
    + rewrite sumN_const. f_equal. unfold rlen, members. destruct (ch_kind c) as [| |f l] eqn:Hk; try reflexivity.
      pose proof (lk_wf _ _ _ Hwf Hc) as [_ Hw]. rewrite Hk in Hw. rewrite map_length, nrange_len by lia. reflexivity.
    + intros d Hd. destruct (members_In r c d Hwf Hi Hc Hd) as [_ [_ [_ [Htg _]]]]. rewrite Htg. reflexivity.
Qed.

Theorem stats_largest : forall g es, tidy g -> enumerates (lg_rep g) es ->
  let s := generate_stats g in
  is_max (fun p : N * N => snd p - fst p + 1) (rep_ranges (lg_rep g)) (st_largest_range_len s) /\
  is_max (fun c => if Nat.ltb 1 (length (ch_cp c)) then N.of_nat (length (ch_cp c)) else 0) es (st_largest_sequence_len s) /\
  is_max vset es (st_largest_set s).
Proof.
  intros g es Ht He s. pose proof (lgr_reachable_wf g (tidy_reachable g Ht)) as Hwf. pose proof (tidy_rinv g Ht) as Hi.
  set (r := lg_rep g) in *. destruct (stats_max (rep_iter r) stats0) as [H1 [H2 H3]].
  assert (Hes : forall c, In c es -> lk r (ch_cp c) = Some c) by (intros c Hc; rewrite <- lookup_lk; apply He; exact Hc).
  unfold s, generate_stats. fold r. rewrite H1, H2, H3. cbn [stats0 st_largest_range_len st_largest_sequence_len st_largest_set]. rewrite !N.max_0_l.
  split; [|split].
  - destruct (maxN_is_max rangelen (rep_iter r)) as [M1 M2]. pose proof (range_items_perm r Hwf Hi) as Hp. split.
    + intros [f l] Hx. apply (Permutation_in _ (Permutation_sym Hp)) in Hx. apply in_map_iff in Hx. destruct Hx as [c [C1 C2]].
      apply filter_In in C2. destruct C2 as [C2 C3]. specialize (M1 c C2). unfold rangelen in M1 at 1. rewrite C3 in M1. unfold rlen in M1. unfold range_of in C1.
      unfold is_range in C3. destruct (ch_kind c); try discriminate. injection C1 as C1 C4. subst. exact M1.
    + destruct M2 as [M2|[c [M2 M3]]]; [auto|]. unfold rangelen in M3 at 1. destruct (is_range c) eqn:C3; [|left; auto]. right. exists (range_of c).
      split; [eapply Permutation_in; [exact Hp|]; apply in_map; apply filter_In; auto|]. rewrite <- M3. unfold range_of, rlen. unfold is_range in C3.
      destruct (ch_kind c); try discriminate. reflexivity.
  - eapply is_max_ext; [|apply (is_max_members0 r seqlen es _ Hwf Hi He); [|apply maxN_is_max]].
    + intros c Hc. unfold seqlen. rewrite is_seq_len by (eapply lk_wf; eauto). reflexivity.
    + intros c _ Hr. unfold seqlen, is_seq, is_range in *. destruct (ch_kind c); try discriminate; reflexivity.
  - apply (is_max_members0 r vset es _ Hwf Hi He); [|apply maxN_is_max]. intros c Hc Hr. eapply vset_range; eauto.
Qed.
