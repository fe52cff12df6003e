(** Which range and which sequence the statistics name, and the unsorted listing of a repertoire. *)
From Coq Require Import Sorting.Sorted Permutation.
From Verif Require Import Base BaseFacts CharModel RepSpec RepProofs RangeProofs VariantProofs IterProofs UtilsModel UtilsSpec UtilsProofs RefModel RefProofs LgrModel LgrSpec LgrProofs LgrReach LgrRange LgrInv LgrTags LgrRefs LgrMirror VarSetSpec VarSetProofs ValidateModel ValidateSpec ValidateProofs StatsProofs.

Definition names (kind : char -> bool) (len : char -> N) (l : list char) (o : option char) (n : N) : Prop :=
  match o with
  | None => n = 0 /\ forall c, In c l -> kind c = false \/ len c = 0
  | Some c => In c l /\ kind c = true /\ len c = n /\ forall d, In d l -> kind d = true -> len d <= n
  end.
Lemma names_step : forall kind len l c o n, names kind len l o n ->
  names kind len (l ++ [c]) (if (kind c && N.ltb n (len c))%bool then Some c else o) (if (kind c && N.ltb n (len c))%bool then len c else n).
Proof.
  intros kind len l c o n H. destruct (kind c) eqn:K; cbn [andb]; [destruct (N.ltb_spec n (len c)) as [L|L]|].
  - cbn. split; [apply in_or_app; right; left; reflexivity|]. split; [exact K|]. split; [reflexivity|].
    intros d Hd Kd. apply in_app_or in Hd. destruct Hd as [Hd|[Hd|[]]]; [|subst; lia].
    destruct o as [c0|]; cbn in H.
    + destruct H as [_ [_ [_ H]]]. specialize (H d Hd Kd). lia.
    + destruct H as [_ H]. destruct (H d Hd); [congruence|lia].
  - destruct o as [c0|]; cbn in *.
    + destruct H as [H1 [H2 [H3 H4]]]. split; [apply in_or_app; auto|]. split; [auto|]. split; [auto|].
      intros d Hd Kd. apply in_app_or in Hd. destruct Hd as [Hd|[Hd|[]]]; [auto|subst; lia].
    + destruct H as [H1 H2]. split; [auto|]. intros d Hd. apply in_app_or in Hd. destruct Hd as [Hd|[Hd|[]]]; [auto|subst; right; lia].
  - destruct o as [c0|]; cbn in *.
    + destruct H as [H1 [H2 [H3 H4]]]. split; [apply in_or_app; auto|]. split; [auto|]. split; [auto|].
      intros d Hd Kd. apply in_app_or in Hd. destruct Hd as [Hd|[Hd|[]]]; [auto|subst; congruence].
    + destruct H as [H1 H2]. split; [auto|]. intros d Hd. apply in_app_or in Hd. destruct Hd as [Hd|[Hd|[]]]; [auto|subst; auto].
Qed.
Definition seq_len (c : char) : N := N.of_nat (length (ch_cp c)).
Lemma stats_names : forall l s pre,
  names is_range rlen pre (st_largest_range s) (st_largest_range_len s) ->
  names is_seq seq_len pre (st_largest_sequence s) (st_largest_sequence_len s) ->
  let s' := fold_left stats_step l s in
  names is_range rlen (pre ++ l) (st_largest_range s') (st_largest_range_len s') /\
  names is_seq seq_len (pre ++ l) (st_largest_sequence s') (st_largest_sequence_len s').
Proof.
  induction l as [|c l IH]; intros s pre H1 H2; cbn [fold_left]; [rewrite app_nil_r; auto|].
  replace (pre ++ c :: l) with ((pre ++ [c]) ++ l) by (rewrite <- app_assoc; reflexivity). apply IH.
  - exact (names_step is_range rlen pre c _ _ H1).
  - exact (names_step is_seq seq_len pre c _ _ H2).
Qed.

(** The range and the sequence the statistics name are entries of the LGR, and the longest of their kind. *)
Theorem stats_named : forall g, tidy g -> let s := generate_stats g in
  match st_largest_range s with
  | None => rep_ranges (lg_rep g) = []
  | Some c => exists f l, ch_kind c = KRange f l /\ lookup (lg_rep g) [f] = Some c /\ ch_cp c = [f] /\ In (f, l) (rep_ranges (lg_rep g)) /\
      st_largest_range_len s = l - f + 1 /\ forall f' l', In (f', l') (rep_ranges (lg_rep g)) -> l' - f' <= l - f
  end /\
  match st_largest_sequence s with
  | None => forall c, lookup (lg_rep g) c <> None -> length c = 1%nat
  | Some c => lookup (lg_rep g) (ch_cp c) = Some c /\ (1 < length (ch_cp c))%nat /\
      st_largest_sequence_len s = N.of_nat (length (ch_cp c)) /\
      forall d, lookup (lg_rep g) d <> None -> (1 < length d)%nat -> (length d <= length (ch_cp c))%nat
  end.
Proof.
  intros g Ht s. pose proof (lgr_reachable_wf g (tidy_reachable g Ht)) as Hwf. pose proof (tidy_rinv g Ht) as Hi.
  set (r := lg_rep g) in *. pose proof (range_items_perm r Hwf Hi) as Hp. pose proof (rinv_intact r Hwf Hi) as Hint.
  pose proof (iter_intact r Hwf Hint) as Hit.
  destruct (stats_names (rep_iter r) stats0 []) as [H1 H2]; [cbn; split; [reflexivity|contradiction]|cbn; split; [reflexivity|contradiction]|].
  cbn [app] in H1, H2. fold (generate_stats g) in H1, H2. change (fold_left stats_step (rep_iter r) stats0) with s in H1, H2.
  clearbody s. assert (Hlen : forall c, In c (rep_iter r) -> is_seq c = Nat.ltb 1 (length (ch_cp c))).
  { intros c Hc. apply is_seq_len. apply (lk_wf r (ch_cp c)); [exact Hwf|]. apply in_all_chars_lk; [exact Hwf|]. apply Hit. exact Hc. }
  assert (Hmem : forall d ch, lk r d = Some ch -> (1 < length d)%nat -> In ch (rep_iter r) /\ is_seq ch = true /\ ch_cp ch = d).
  { intros d ch Hd Hl. pose proof (lk_cp _ _ _ Hd) as Hcp. pose proof (lk_wf _ _ _ Hwf Hd) as Hw. pose proof (is_seq_len _ Hw) as Hs.
    rewrite Hcp in Hs. rewrite (proj2 (Nat.ltb_lt _ _) Hl) in Hs. split; [|auto]. apply Hit. split; [apply in_all_chars_lk; [exact Hwf|]; congruence|].
    intros f l Hk. unfold is_seq in Hs. rewrite Hk in Hs. discriminate. }
  split.
  - destruct (st_largest_range s) as [c|]; cbn in H1.
    + destruct H1 as [A1 [A2 [A3 A4]]]. pose proof A2 as A2'. unfold is_range in A2'. destruct (ch_kind c) as [| |f l] eqn:K; try discriminate. clear A2'.
      exists f, l. destruct (proj1 (Hit c) A1) as [B1 B2]. apply in_all_chars_lk in B1; [|exact Hwf].
      assert (Hcp : ch_cp c = [f]) by (apply (B2 f l); exact K || reflexivity). rewrite Hcp in B1. split; [reflexivity|].
      split; [rewrite lookup_lk; exact B1|]. split; [exact Hcp|]. unfold rlen in A3. rewrite K in A3.
      split. { eapply Permutation_in; [exact Hp|]. apply in_map_iff. exists c. split; [unfold range_of; rewrite K; reflexivity|]. apply filter_In. auto. }
      split; [auto|]. intros f' l' Hin. apply (Permutation_in _ (Permutation_sym Hp)) in Hin. apply in_map_iff in Hin.
      destruct Hin as [d [D1 D2]]. apply filter_In in D2. destruct D2 as [D2 D3]. specialize (A4 d D2 D3). unfold rlen in A4. unfold range_of in D1.
      unfold is_range in D3. destruct (ch_kind d); try discriminate. injection D1 as D1 D4. subst. lia.
    + destruct H1 as [_ A]. destruct (rep_ranges r) as [|p rs] eqn:E; [reflexivity|]. exfalso.
      assert (Hin : In p (map range_of (filter is_range (rep_iter r)))) by (eapply Permutation_in; [apply Permutation_sym; exact Hp|left; reflexivity]).
      apply in_map_iff in Hin. destruct Hin as [d [D1 D2]]. apply filter_In in D2. destruct D2 as [D2 D3].
      destruct (A d D2) as [A1|A1]; [congruence|]. unfold rlen in A1. unfold is_range in D3. destruct (ch_kind d); try discriminate. lia.
  - destruct (st_largest_sequence s) as [c|]; cbn in H2.
    + destruct H2 as [A1 [A2 [A3 A4]]]. rewrite (Hlen c A1) in A2. apply Nat.ltb_lt in A2.
      split; [rewrite lookup_lk; apply in_all_chars_lk; [exact Hwf|]; apply Hit; exact A1|]. split; [exact A2|]. split; [symmetry; exact A3|].
      intros d Hd Hl. rewrite lookup_lk in Hd. destruct (lk r d) as [ch|] eqn:E; [|congruence]. destruct (Hmem d ch E Hl) as [M1 [M2 M3]].
      specialize (A4 ch M1 M2). unfold seq_len in A3, A4. rewrite M3 in A4. lia.
    + destruct H2 as [_ A]. intros c Hc. rewrite lookup_lk in Hc. destruct (lk r c) as [ch|] eqn:E; [|congruence].
      destruct c as [|x [|y c]]; [discriminate|reflexivity|]. exfalso. destruct (Hmem _ ch E) as [M1 [M2 M3]]; [cbn; lia|].
      destruct (A ch M1) as [A1|A1]; [congruence|]. unfold seq_len in A1. rewrite M3 in A1. cbn in A1. lia.
Qed.

Lemma NoDup_map_filter : forall A B (f : A -> B) p l, NoDup (map f l) -> NoDup (map f (filter p l)).
Proof.
  intros A B f p l. induction l as [|x l IH]; cbn [map filter]; intro H; [constructor|]. inversion H as [|y m H1 H2]; subst.
  destruct (p x); cbn [map]; [|auto]. constructor; [|auto]. intro Hin. apply H1. apply in_map_iff in Hin. destruct Hin as [y [Y1 Y2]].
  apply filter_In in Y2. apply in_map_iff. exists y. tauto.
Qed.
Theorem listing_filtered : forall r sequences ranges, reachable r ->
  NoDup (map ch_cp (all_repertoire r sequences ranges)) /\
  forall c, In c (all_repertoire r sequences ranges) <->
    lookup r (ch_cp c) = Some c /\ (sequences = false -> length (ch_cp c) = 1%nat) /\
    (ranges = false -> forall f l, ch_kind c <> KRange f l).
Proof.
  intros r sq rg Hre. pose proof (reachable_wf r Hre) as Hwf. split.
  - apply NoDup_map_filter. apply all_chars_NoDup. exact Hwf.
  - intro c. unfold all_repertoire. rewrite filter_In. change (flat_map snd (rep_chars r)) with (all_chars r).
    rewrite in_all_chars_lk by exact Hwf. rewrite lookup_lk. split.
    + intros [H1 H2]. split; [exact H1|]. apply andb_true_iff in H2. destruct H2 as [H2 H3]. pose proof (lk_wf _ _ _ Hwf H1) as Hw. split.
      * intros ->. cbn [negb] in H2. rewrite andb_true_r, negb_true_iff, (is_seq_len _ Hw) in H2. apply Nat.ltb_ge in H2.
        destruct (ch_cp c) as [|x [|y t]] eqn:E; [discriminate|reflexivity|cbn in H2; lia].
      * intros -> f l K. unfold is_range in H3. rewrite K in H3. discriminate.
    + intros [H1 [H2 H3]]. split; [exact H1|]. pose proof (lk_wf _ _ _ Hwf H1) as Hw. rewrite (is_seq_len _ Hw). apply andb_true_iff. split.
      * destruct sq; [rewrite andb_false_r; reflexivity|]. rewrite (H2 eq_refl). reflexivity.
      * destruct rg; [rewrite andb_false_r; reflexivity|]. unfold is_range. destruct (ch_kind c) as [| |f l] eqn:K; try reflexivity. exfalso. apply (H3 eq_refl f l). exact K || reflexivity.
Qed.
