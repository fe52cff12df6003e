(** The order of the members of a merged set, and reading the result back. *)
From Coq Require Import Permutation Sorted.
From Verif Require Import Base BaseFacts UtilsModel UtilsProofs MetaModel MetaSpec CompareModel CompareSpec CompareFinal.
From Verif Require Import MergeMetaModel MergeMetaSpec MergeMetaProofs.
Open Scope string_scope.
Open Scope list_scope.

Lemma und_last_skip : forall s, und_last 0 (txt "und-" ++ s) = txt "zzz" ++ und_last 0 s.
Proof. reflexivity. Qed.
Lemma und_last_replacing : forall n s, (length s <= n)%nat -> replacing (txt "und-") (txt "zzz") s (und_last 0 s).
Proof.
  induction n as [|n IH]; intros s Hn; [destruct s; [constructor|cbn in Hn; lia]|].
  destruct s as [|c s]; [constructor|]. destruct (cps_eqb (firstn 4 (c :: s)) (txt "und-")) eqn:E.
  - apply cps_eqb_eq in E. assert (Es : c :: s = txt "und-" ++ skipn 4 (c :: s)) by (rewrite <- E at 1; symmetry; apply firstn_skipn).
    rewrite Es, und_last_skip. apply Replacing_hit. apply IH. apply (f_equal (@length N)) in Es. rewrite app_length in Es. unfold cps in *. cbn [length txt app] in Es, Hn |- *. lia.
  - cbn [und_last]. rewrite E. apply Replacing_miss; [|apply IH; cbn in Hn; lia].
    intros r Hr. rewrite Hr in E. revert E. cbn. discriminate.
Qed.
Lemma replacing_unique : forall old new_ s t t', old <> [] -> replacing old new_ s t -> replacing old new_ s t' -> t = t'.
Proof.
  intros old new_ s t t' Ho H. revert t'. induction H as [|s t H IH|c s t Hc H IH]; intros t' K.
  - inversion K as [|s0 t0 K0 E|]; subst; [reflexivity|]. apply app_eq_nil in E. destruct E. contradiction.
  - inversion K as [E|s0 t0 K0 E|c0 s0 t0 N K0 E]; subst.
    + symmetry in E. apply app_eq_nil in E. destruct E. contradiction.
    + apply app_inv_head in E. subst. f_equal. apply IH. exact K0.
    + exfalso. apply (N s). exact E.
  - inversion K as [|s0 t0 K0 E|c0 s0 t0 N K0]; subst; [exfalso; apply (Hc s0); symmetry; exact E|]. f_equal. apply IH. exact K0.
Qed.
Definition key (m : metadata) : cps := und_last 0 (meta_script m).
Lemma sorts_as_iff : forall m k, sorts_as m k <-> k = key m.
Proof.
  intros m k. unfold sorts_as, key, meta_script. split.
  - intro H. eapply replacing_unique; [|exact H|eapply und_last_replacing; reflexivity]. discriminate.
  - intros ->. eapply und_last_replacing. reflexivity.
Qed.
Lemma meta_leb_total : forall a b, meta_leb a b = true \/ meta_leb b a = true.
Proof. intros a b. apply cps_leb_total. Qed.
Lemma meta_leb_trans : forall a b c, meta_leb a b = true -> meta_leb b c = true -> meta_leb a c = true.
Proof. intros a b c. apply cps_leb_trans. Qed.
Lemma filter_insert : forall (leb : metadata -> metadata -> bool) f x l, (forall y, f x = true -> f y = true -> leb x y = true) ->
  filter f (insert leb x l) = filter f (x :: l).
Proof.
  intros leb f x l H. induction l as [|y l IH]; [reflexivity|]. cbn [insert]. destruct (leb x y) eqn:E; [reflexivity|].
  cbn [filter] in *. rewrite IH. destruct (f y) eqn:Fy; [|reflexivity]. destruct (f x) eqn:Fx; [|reflexivity]. rewrite (H y eq_refl Fy) in E. discriminate.
Qed.
Lemma filter_isort : forall (leb : metadata -> metadata -> bool) f l, (forall x y, f x = true -> f y = true -> leb x y = true) ->
  filter f (isort leb l) = filter f l.
Proof.
  intros leb f l H. induction l as [|x l IH]; [reflexivity|]. change (isort leb (x :: l)) with (insert leb x (isort leb l)). rewrite filter_insert by (intro y; apply H). cbn [filter]. rewrite IH. reflexivity.
Qed.
Theorem set_order : forall today l, exists r, in_script_order l r /\ merge_set_metadata today l = merge_metadata today r.
Proof.
  intros today l. exists (isort meta_leb l). split; [|reflexivity]. split; [apply isort_perm|]. split.
  - intros a m1 b m2 c k1 k2 E H1 H2. apply sorts_as_iff in H1, H2. subst k1 k2.
    pose proof (isort_sorted meta_leb meta_leb_total meta_leb_trans l) as S. rewrite E in S. clear E. induction a as [|x a IH].
    + inversion S as [|? ? _ F]; subst. rewrite Forall_forall in F. apply (F m2). apply in_or_app. right. left. reflexivity.
    + inversion S as [|? ? S' _]; subst. apply IH. exact S'.
  - intros k f Hf. apply filter_isort. intros x y Hx Hy. apply Hf in Hx, Hy. apply sorts_as_iff in Hx, Hy. unfold meta_leb. fold (key x) (key y).
    rewrite <- Hx, <- Hy. destruct (cps_leb_total k k); assumption.
Qed.

(** Two sorted orders of a set no two of whose members sort alike are the same. *)
Lemma script_order_unique : forall l l' r r', Permutation l l' ->
  (forall a m1 b m2 c k, l = a ++ m1 :: b ++ m2 :: c -> sorts_as m1 k -> sorts_as m2 k -> False) ->
  in_script_order l r -> in_script_order l' r' -> r = r'.
Proof.
  intros l l' r r' HP HN [P [S _]] [P' [S' _]].
  assert (Hd : NoDup (map key r)).
  { assert (Hl : NoDup (map key l)).
    { clear - HN. induction l as [|x l IH]; [constructor|]. cbn [map]. constructor.
      - intro K. apply in_map_iff in K. destruct K as [y [E Hy]]. apply in_split in Hy. destruct Hy as [b [c ->]].
        apply (HN [] x b y c (key x) eq_refl); apply sorts_as_iff; congruence.
      - apply IH. intros a m1 b m2 c k -> H1 H2. exact (HN (x :: a) m1 b m2 c k eq_refl H1 H2). }
    eapply Permutation_NoDup; [apply Permutation_map; exact P|exact Hl]. }
  assert (Hr : Permutation r r') by (exact (perm_trans (Permutation_sym P) (perm_trans HP P'))).
  clear P P' HP HN l l'.
  assert (T : forall q, (forall a m1 b m2 c k1 k2, q = a ++ m1 :: b ++ m2 :: c -> sorts_as m1 k1 -> sorts_as m2 k2 -> cps_leb k1 k2 = true) ->
                StronglySorted (fun a b => cps_leb (key a) (key b) = true) q).
  { intro q. induction q as [|x q IH]; intro H; constructor.
    - apply IH. intros a m1 b m2 c k1 k2 -> K1 K2. exact (H (x :: a) m1 b m2 c k1 k2 eq_refl K1 K2).
    - apply Forall_forall. intros y Hy. apply in_split in Hy. destruct Hy as [b [c ->]]. apply (H [] x b y c); [reflexivity| |]; apply sorts_as_iff; reflexivity. }
  apply T in S. apply T in S'. clear T. revert r' S' Hr. induction r as [|x r IH]; intros r' S' Hr.
  - apply Permutation_nil in Hr. congruence.
  - destruct r' as [|y r']; [apply Permutation_sym, Permutation_nil in Hr; discriminate|].
    inversion S as [|? ? Sr Fr]; subst. inversion S' as [|? ? Sr' Fr']; subst. cbn [map] in Hd. inversion Hd as [|? ? Nx Nr]; subst.
    assert (E : x = y).
    { assert (Hy : In y (x :: r)) by (eapply Permutation_in; [apply Permutation_sym; exact Hr|left; reflexivity]).
      destruct Hy as [Hy|Hy]; [exact Hy|]. exfalso.
      assert (Hx : In x (y :: r')) by (eapply Permutation_in; [exact Hr|left; reflexivity]). destruct Hx as [Hx|Hx].
      - subst y. apply Nx. apply in_map. exact Hy.
      - rewrite Forall_forall in Fr, Fr'. apply Nx. rewrite (cps_leb_antisym _ _ (Fr y Hy) (Fr' x Hx)). apply in_map. exact Hy. }
    subst y. f_equal. apply IH; [exact Sr|exact Nr|exact Sr'|]. eapply Permutation_cons_inv. exact Hr.
Qed.
Theorem order_irrelevant : forall today l l', Permutation l l' ->
  (forall a m1 b m2 c k, l = a ++ m1 :: b ++ m2 :: c -> sorts_as m1 k -> sorts_as m2 k -> False) ->
  merge_set_metadata today l = merge_set_metadata today l'.
Proof.
  intros today l l' HP HN. destruct (set_order today l) as [r [O ->]]. destruct (set_order today l') as [r' [O' ->]].
  rewrite (script_order_unique l l' r r' HP HN O O'). reflexivity.
Qed.
Lemma in_map_perm : forall {A B} (f : A -> B) l l', Permutation l l' -> forall o, In o (map f l) <-> In o (map f l').
Proof. intros A B f l l' H o. split; apply Permutation_in; apply Permutation_map; [exact H|apply Permutation_sym; exact H]. Qed.
Lemma in_flat_perm : forall {A B} (f : A -> list B) l l', Permutation l l' -> forall x, In x (flat_map f l) <-> In x (flat_map f l').
Proof.
  intros A B f l l' H x. rewrite !in_flat_map. split; intros [m [H1 H2]]; exists m; (split; [|exact H2]); (eapply Permutation_in; [|exact H1]); [exact H|apply Permutation_sym; exact H].
Qed.
(** Whatever the order, the same languages, scopes, period and Unicode version. *)
Theorem order_changes_little : forall today l l', Permutation l l' ->
  let m := merge_set_metadata today l in let m' := merge_set_metadata today l' in
  Permutation (md_languages m) (md_languages m') /\ Permutation (md_scopes m) (md_scopes m') /\ md_start m = md_start m' /\ md_end m = md_end m' /\
  md_unicode m = md_unicode m' /\ option_map desc_type (md_description m) = option_map desc_type (md_description m').
Proof.
  intros today l l' HP m m'. subst m m'. destruct (set_order today l) as [r [[P _] ->]]. destruct (set_order today l') as [r' [[P' _] ->]].
  assert (H : Permutation r r') by (exact (perm_trans (Permutation_sym P) (perm_trans HP P'))). clear P P' HP l l'.
  split; [|split; [|split; [|split; [|split]]]].
  - destruct (languages_merged today r) as [D [I _]]. destruct (languages_merged today r') as [D' [I' _]]. apply NoDup_Permutation; [exact D|exact D'|].
    intro x. rewrite I, I'. apply in_flat_perm. exact H.
  - destruct (scopes_merged today r) as [D [I _]]. destruct (scopes_merged today r') as [D' [I' _]]. apply NoDup_Permutation; [exact D|exact D'|].
    intro x. rewrite I, I'. apply in_flat_perm. exact H.
  - eapply greatest_unique; [|apply start_merged|apply start_merged]. apply in_map_perm. exact H.
  - eapply least_unique; [|apply end_merged|apply end_merged]. apply in_map_perm. exact H.
  - eapply greatest_unique; [|apply unicode_merged|apply unicode_merged]. intro o. cbn [In]. rewrite (in_map_perm md_unicode r r' H o). reflexivity.
  - destruct (description_merged today r) as [d [E [H1 H2]]]. destruct (description_merged today r') as [d' [E' [H1' H2']]]. rewrite E, E'. cbn [option_map]. f_equal.
    assert (A : all_html r <-> all_html r').
    { unfold all_html. split; intros K x dx Hx; apply K; (eapply Permutation_in; [|exact Hx]); [apply Permutation_sym; exact H|exact H]. }
    destruct (forallb (fun p : cps * description => is_html (snd p)) (pairs r)) eqn:F.
    + apply html_iff in F. rewrite (proj1 (H1 F)), (proj1 (H1' (proj1 A F))). reflexivity.
    + assert (N : ~ all_html r) by (intro K; apply html_iff in K; congruence). rewrite (proj1 (H2 N)), (proj1 (H2' (fun K => N (proj2 A K)))). reflexivity.
Qed.
