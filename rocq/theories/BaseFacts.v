(** Facts about [Base.v]. *)
From Verif Require Export Base.
From Coq Require Export Permutation Sorted.

Lemma cps_eqb_eq : forall a b, cps_eqb a b = true <-> a = b.
Proof.
  induction a as [|x a IH]; destruct b as [|y b]; simpl; split; intro H; try congruence; auto.
  - apply andb_true_iff in H. destruct H as [H1 H2].
    apply N.eqb_eq in H1. apply IH in H2. congruence.
  - injection H as H1 H2. subst. rewrite N.eqb_refl. simpl. apply IH. reflexivity.
Qed.

Lemma cps_eqb_refl : forall a, cps_eqb a a = true.
Proof. intro a. apply cps_eqb_eq. reflexivity. Qed.

Lemma cps_eqb_neq : forall a b, cps_eqb a b = false <-> a <> b.
Proof.
  intros a b. rewrite <- not_true_iff_false. rewrite cps_eqb_eq. tauto.
Qed.

Lemma cps_eqb_sym : forall a b, cps_eqb a b = cps_eqb b a.
Proof.
  intros a b. destruct (cps_eqb b a) eqn:E.
  - apply cps_eqb_eq in E. subst. apply cps_eqb_refl.
  - apply cps_eqb_neq in E. apply cps_eqb_neq. congruence.
Qed.

Lemma cps_eq_dec : forall a b : cps, {a = b} + {a <> b}.
Proof.
  intros a b. destruct (cps_eqb a b) eqn:E.
  - left. apply cps_eqb_eq. exact E.
  - right. apply cps_eqb_neq. exact E.
Qed.

Lemma ostring_eqb_eq : forall a b, ostring_eqb a b = true <-> a = b.
Proof.
  intros [a|] [b|]; simpl; split; intro H; try congruence; auto.
  - apply String.eqb_eq in H. congruence.
  - injection H as H. subst. apply String.eqb_refl.
Qed.

Lemma ostring_eqb_refl : forall a, ostring_eqb a a = true.
Proof. intro a. apply ostring_eqb_eq. reflexivity. Qed.

Lemma cps_leb_refl : forall a, cps_leb a a = true.
Proof. induction a as [|x a IH]; simpl; auto. rewrite N.eqb_refl. exact IH. Qed.

Lemma cps_leb_total : forall a b, cps_leb a b = true \/ cps_leb b a = true.
Proof.
  induction a as [|x a IH]; destruct b as [|y b]; simpl; auto.
  destruct (N.eqb x y) eqn:E.
  - apply N.eqb_eq in E. subst. rewrite N.eqb_refl. apply IH.
  - rewrite N.eqb_sym, E. apply N.eqb_neq in E.
    destruct (N.lt_trichotomy x y) as [H|[H|H]]; [left|contradiction|right];
      apply N.ltb_lt; exact H.
Qed.

Lemma cps_leb_trans : forall a b c,
  cps_leb a b = true -> cps_leb b c = true -> cps_leb a c = true.
Proof.
  induction a as [|x a IH]; destruct b as [|y b]; destruct c as [|z c]; simpl;
    intros H1 H2; try congruence; auto.
  destruct (N.eqb x y) eqn:E1.
  - apply N.eqb_eq in E1. subst y.
    destruct (N.eqb x z) eqn:E2; auto. eapply IH; eauto.
  - destruct (N.eqb y z) eqn:E2.
    + apply N.eqb_eq in E2. subst z. rewrite E1. exact H1.
    + apply N.ltb_lt in H1. apply N.ltb_lt in H2.
      assert (H3 : x <> z) by lia. apply N.eqb_neq in H3. rewrite H3.
      apply N.ltb_lt. lia.
Qed.

Lemma cps_leb_antisym : forall a b,
  cps_leb a b = true -> cps_leb b a = true -> a = b.
Proof.
  induction a as [|x a IH]; destruct b as [|y b]; simpl; intros H1 H2; try congruence.
  destruct (N.eqb x y) eqn:E1.
  - apply N.eqb_eq in E1. subst y. rewrite N.eqb_refl in H2.
    f_equal. apply IH; assumption.
  - rewrite N.eqb_sym, E1 in H2. apply N.ltb_lt in H1. apply N.ltb_lt in H2. lia.
Qed.

Lemma prefixb_spec : forall p l, prefixb p l = true <-> exists r, l = p ++ r.
Proof.
  induction p as [|x p IH]; intros l; simpl.
  - split; eauto.
  - destruct l as [|y l]; simpl.
    + split; intro H; [discriminate|]. destruct H as [r H]. discriminate.
    + rewrite andb_true_iff, N.eqb_eq, IH. split.
      * intros [H1 [r H2]]. subst. eauto.
      * intros [r H]. injection H as H1 H2. subst. eauto.
Qed.

Lemma memb_In : forall A (eqb : A -> A -> bool),
  (forall a b, eqb a b = true <-> a = b) ->
  forall x l, memb eqb x l = true <-> In x l.
Proof.
  intros A eqb Heq x l. unfold memb. rewrite existsb_exists. split.
  - intros [y [H1 H2]]. apply Heq in H2. subst. exact H1.
  - intro H. exists x. split; auto. apply Heq. reflexivity.
Qed.

Lemma memb_false : forall A (eqb : A -> A -> bool),
  (forall a b, eqb a b = true <-> a = b) ->
  forall x l, memb eqb x l = false <-> ~ In x l.
Proof.
  intros A eqb Heq x l. rewrite <- not_true_iff_false.
  rewrite (memb_In _ _ Heq). tauto.
Qed.

(** Dictionaries. *)
Section DictFacts.
  Context {K V : Type} (eqb : K -> K -> bool).
  Hypothesis Heq : forall a b, eqb a b = true <-> a = b.

  Lemma eqb_refl' : forall a, eqb a a = true.
  Proof. intro a. apply Heq. reflexivity. Qed.
  Lemma eqb_false' : forall a b, eqb a b = false <-> a <> b.
  Proof. intros a b. rewrite <- not_true_iff_false, Heq. tauto. Qed.

  Lemma dget_In : forall k (d : dict K V) v, dget eqb k d = Some v -> In (k, v) d.
  Proof.
    induction d as [|[k' v'] d IH]; simpl; intros v H; [discriminate|].
    destruct (eqb k k') eqn:E.
    - apply Heq in E. left. congruence.
    - right. auto.
  Qed.

  Lemma In_dget : forall k (d : dict K V) v,
    NoDup (dkeys d) -> In (k, v) d -> dget eqb k d = Some v.
  Proof.
    induction d as [|[k' v'] d IH]; simpl; intros v Hnd H; [contradiction|].
    inversion Hnd as [|? ? Hni Hnd']; subst.
    destruct H as [H|H].
    - injection H as H1 H2. subst. rewrite eqb_refl'. reflexivity.
    - destruct (eqb k k') eqn:E.
      + apply Heq in E. subst. exfalso. apply Hni. unfold dkeys.
        apply in_map_iff. exists (k', v). auto.
      + auto.
  Qed.

  Lemma dget_None : forall k (d : dict K V), dget eqb k d = None <-> ~ In k (dkeys d).
  Proof.
    induction d as [|[k' v'] d IH]; simpl.
    - tauto.
    - destruct (eqb k k') eqn:E.
      + apply Heq in E. subst. split; intro H; [discriminate|]. exfalso. auto.
      + apply eqb_false' in E. rewrite IH. split; intro H.
        * intros [H1|H1]; [congruence|]. auto.
        * auto.
  Qed.

  Lemma dget_Some_key : forall k (d : dict K V) v, dget eqb k d = Some v -> In k (dkeys d).
  Proof.
    intros k d v H. apply dget_In in H. apply in_map_iff. exists (k, v). auto.
  Qed.

  Lemma dget_dset : forall k k' v (d : dict K V),
    dget eqb k (dset eqb k' v d) = if eqb k k' then Some v else dget eqb k d.
  Proof.
    induction d as [|[k0 v0] d IH]; simpl.
    - destruct (eqb k k'); reflexivity.
    - destruct (eqb k' k0) eqn:E0; simpl.
      + apply Heq in E0. subst k0. destruct (eqb k k'); reflexivity.
      + destruct (eqb k k0) eqn:E1.
        * apply Heq in E1. subst k0. destruct (eqb k k') eqn:E2; auto.
          apply Heq in E2. subst. rewrite eqb_refl' in E0. discriminate.
        * exact IH.
  Qed.

  Lemma dkeys_dset_in : forall k v (d : dict K V),
    In k (dkeys d) -> dkeys (dset eqb k v d) = dkeys d.
  Proof.
    induction d as [|[k0 v0] d IH]; simpl; intro H; [contradiction|].
    destruct (eqb k k0) eqn:E; simpl; auto.
    f_equal. apply IH. destruct H as [H|H]; auto. subst.
    rewrite eqb_refl' in E. discriminate.
  Qed.

  Lemma dkeys_dset_notin : forall k v (d : dict K V),
    ~ In k (dkeys d) -> dkeys (dset eqb k v d) = dkeys d ++ [k].
  Proof.
    induction d as [|[k0 v0] d IH]; simpl; intro H; auto.
    destruct (eqb k k0) eqn:E; simpl.
    - apply Heq in E. subst. exfalso. auto.
    - f_equal. apply IH. auto.
  Qed.

  Lemma in_dec_keys : forall k (d : dict K V), In k (dkeys d) \/ ~ In k (dkeys d).
  Proof.
    intros k d. destruct (dget eqb k d) eqn:E.
    - left. eapply dget_Some_key; eauto.
    - right. apply dget_None. exact E.
  Qed.

  Lemma dset_NoDup : forall k v (d : dict K V),
    NoDup (dkeys d) -> NoDup (dkeys (dset eqb k v d)).
  Proof.
    intros k v d H. destruct (in_dec_keys k d) as [Hi|Hi].
    - rewrite dkeys_dset_in; auto.
    - rewrite dkeys_dset_notin; auto.
      apply Permutation_NoDup with (l := k :: dkeys d).
      + apply Permutation_cons_append.
      + constructor; auto.
  Qed.

  Lemma dset_keys_iff : forall k k' v (d : dict K V),
    In k' (dkeys (dset eqb k v d)) <-> k' = k \/ In k' (dkeys d).
  Proof.
    intros k k' v d. destruct (in_dec_keys k d) as [Hi|Hi].
    - rewrite dkeys_dset_in; auto. split; auto. intros [H|H]; subst; auto.
    - rewrite dkeys_dset_notin; auto. rewrite in_app_iff. simpl. split.
      + intros [H|[H|[]]]; auto.
      + intros [H|H]; auto.
  Qed.

  Lemma ddel_keys_sub : forall k k' (d : dict K V),
    In k' (dkeys (ddel eqb k d)) -> In k' (dkeys d).
  Proof.
    induction d as [|[k0 v0] d IH]; simpl; intro H; auto.
    destruct (eqb k k0); simpl in *; auto. destruct H as [H|H]; auto.
  Qed.

  Lemma ddel_NoDup : forall k (d : dict K V),
    NoDup (dkeys d) -> NoDup (dkeys (ddel eqb k d)).
  Proof.
    induction d as [|[k0 v0] d IH]; simpl; intro H; auto.
    inversion H as [|? ? Hni Hnd]; subst.
    destruct (eqb k k0); auto. simpl. constructor.
    - intro Hc. apply Hni. eapply ddel_keys_sub; eauto.
    - apply IH. exact Hnd.
  Qed.

  Lemma dget_ddel : forall k k' (d : dict K V), NoDup (dkeys d) ->
    dget eqb k (ddel eqb k' d) = if eqb k k' then None else dget eqb k d.
  Proof.
    induction d as [|[k0 v0] d IH]; simpl; intro Hnd.
    - destruct (eqb k k'); reflexivity.
    - inversion Hnd as [|? ? Hni Hnd']; subst. specialize (IH Hnd').
      destruct (eqb k' k0) eqn:E0; simpl.
      + apply Heq in E0. subst k0. destruct (eqb k k') eqn:E; auto.
        apply Heq in E. subst. apply dget_None. exact Hni.
      + destruct (eqb k k0) eqn:E1; auto.
        apply Heq in E1. subst k0. destruct (eqb k k') eqn:E2; auto.
        apply Heq in E2. subst. rewrite eqb_refl' in E0. discriminate.
  Qed.

  Lemma dmem_In : forall k (d : dict K V), dmem eqb k d = true <-> In k (dkeys d).
  Proof.
    intros k d. unfold dmem. destruct (dget eqb k d) eqn:E.
    - split; auto. intros _. eapply dget_Some_key; eauto.
    - apply dget_None in E. split; intro H; [discriminate|contradiction].
  Qed.

  (** In-place update never moves entries. *)
  Lemma dset_same : forall k v (d : dict K V), dget eqb k d = Some v -> dset eqb k v d = d.
  Proof.
    induction d as [|[k0 v0] d IH]; simpl; intro H; [discriminate|].
    destruct (eqb k k0) eqn:E.
    - apply Heq in E. congruence.
    - f_equal. auto.
  Qed.

  Lemma dset_split : forall k v v' (d : dict K V), dget eqb k d = Some v ->
    exists d1 d2, d = d1 ++ (k, v) :: d2 /\ ~ In k (dkeys d1) /\
                  dset eqb k v' d = d1 ++ (k, v') :: d2.
  Proof.
    induction d as [|[k0 v0] d IH]; simpl; intro H; [discriminate|].
    destruct (eqb k k0) eqn:E.
    - apply Heq in E. injection H as H. subst. exists [], d. simpl. auto.
    - destruct (IH H) as [d1 [d2 [H1 [H2 H3]]]].
      exists ((k0, v0) :: d1), d2. simpl. rewrite H3, <- H1. repeat split; auto.
      apply eqb_false' in E. intros [Hc|Hc]; [congruence|auto].
  Qed.

  Lemma ddel_split : forall k v (d : dict K V), dget eqb k d = Some v ->
    exists d1 d2, d = d1 ++ (k, v) :: d2 /\ ~ In k (dkeys d1) /\
                  ddel eqb k d = d1 ++ d2.
  Proof.
    induction d as [|[k0 v0] d IH]; simpl; intro H; [discriminate|].
    destruct (eqb k k0) eqn:E.
    - apply Heq in E. injection H as H. subst. exists [], d. simpl. auto.
    - destruct (IH H) as [d1 [d2 [H1 [H2 H3]]]].
      exists ((k0, v0) :: d1), d2. simpl. rewrite H3, <- H1. repeat split; auto.
      apply eqb_false' in E. intros [Hc|Hc]; [congruence|auto].
  Qed.

  Lemma dset_new : forall k v (d : dict K V), dget eqb k d = None -> dset eqb k v d = d ++ [(k, v)].
  Proof.
    induction d as [|[k0 v0] d IH]; simpl; intro H; auto.
    destruct (eqb k k0) eqn:E; [discriminate|]. f_equal. auto.
  Qed.
End DictFacts.

(** Sorting. *)
Section SortFacts.
  Context {A : Type} (leb : A -> A -> bool).

  Lemma insert_perm : forall x l, Permutation (x :: l) (insert leb x l).
  Proof.
    induction l as [|y l IH]; simpl; auto.
    destruct (leb x y); auto.
    eapply perm_trans; [apply perm_swap|]. constructor. exact IH.
  Qed.

  Lemma isort_perm : forall l, Permutation l (isort leb l).
  Proof.
    induction l as [|x l IH]; simpl; auto.
    eapply perm_trans; [|apply insert_perm]. constructor. exact IH.
  Qed.

  Lemma isort_In : forall x l, In x (isort leb l) <-> In x l.
  Proof.
    intros x l. split; intro H.
    - eapply Permutation_in; [apply Permutation_sym, isort_perm|exact H].
    - eapply Permutation_in; [apply isort_perm|exact H].
  Qed.

  Lemma isort_length : forall l, length (isort leb l) = length l.
  Proof. intro l. symmetry. apply Permutation_length, isort_perm. Qed.

  Lemma isort_NoDup : forall l, NoDup l -> NoDup (isort leb l).
  Proof. intros l H. eapply Permutation_NoDup; [apply isort_perm|exact H]. Qed.

  Hypothesis total : forall a b, leb a b = true \/ leb b a = true.
  Hypothesis trans : forall a b c, leb a b = true -> leb b c = true -> leb a c = true.

  Definition le_ (a b : A) : Prop := leb a b = true.

  Lemma insert_sorted : forall x l, StronglySorted le_ l -> StronglySorted le_ (insert leb x l).
  Proof.
    induction l as [|y l IH]; simpl; intro H.
    - constructor; constructor.
    - inversion H as [|? ? Hs Hf]; subst. destruct (leb x y) eqn:E.
      + constructor; auto. constructor; auto.
        eapply Forall_impl; [|exact Hf]. intros z Hz. unfold le_ in *. eapply trans; eauto.
      + constructor; [apply IH; exact Hs|].
        assert (Hyx : leb y x = true) by (destruct (total x y); congruence).
        rewrite Forall_forall in *. intros z Hz.
        assert (Hz' : In z (x :: l)).
        { eapply Permutation_in; [apply Permutation_sym, insert_perm|exact Hz]. }
        destruct Hz' as [Hz'|Hz']; [subst; exact Hyx|]. apply Hf. exact Hz'.
  Qed.

  Lemma isort_sorted : forall l, StronglySorted le_ (isort leb l).
  Proof.
    induction l as [|x l IH]; simpl; [constructor|]. apply insert_sorted. exact IH.
  Qed.

  Lemma isort_id : forall l, StronglySorted le_ l -> isort leb l = l.
  Proof.
    induction l as [|x l IH]; simpl; intro H; auto.
    inversion H as [|? ? Hs Hf]; subst. rewrite IH; auto.
    destruct l as [|y l]; simpl; auto.
    inversion Hf as [|? ? Hxy Hf']; subst. unfold le_ in Hxy. rewrite Hxy. reflexivity.
  Qed.

  Hypothesis antisym : forall a b, leb a b = true -> leb b a = true -> a = b.

  Lemma sorted_perm_eq : forall l1 l2, StronglySorted le_ l1 -> StronglySorted le_ l2 ->
    Permutation l1 l2 -> l1 = l2.
  Proof.
    induction l1 as [|x l1 IH]; intros l2 H1 H2 HP.
    - apply Permutation_nil in HP. congruence.
    - destruct l2 as [|y l2]; [apply Permutation_sym, Permutation_nil in HP; discriminate|].
      inversion H1 as [|? ? Hs1 Hf1]; subst. inversion H2 as [|? ? Hs2 Hf2]; subst.
      assert (x = y).
      { assert (Hx : In x (y :: l2)) by (eapply Permutation_in; [exact HP|left; reflexivity]).
        assert (Hy : In y (x :: l1)) by (eapply Permutation_in; [apply Permutation_sym; exact HP|left; reflexivity]).
        destruct Hx as [Hx|Hx]; auto. destruct Hy as [Hy|Hy]; auto.
        rewrite Forall_forall in Hf1, Hf2.
        apply antisym; [apply Hf1; exact Hy|apply Hf2; exact Hx]. }
      subst y. f_equal. apply IH; auto. eapply Permutation_cons_inv; eauto.
  Qed.

  Lemma isort_perm_eq : forall l1 l2, Permutation l1 l2 -> isort leb l1 = isort leb l2.
  Proof.
    intros l1 l2 HP. apply sorted_perm_eq; try apply isort_sorted.
    eapply perm_trans; [apply Permutation_sym, isort_perm|].
    eapply perm_trans; [exact HP|apply isort_perm].
  Qed.
End SortFacts.

(** Ranges of code points. *)
Lemma nrange_In : forall f l c, In c (nrange f l) <-> f <= c <= l.
Proof.
  intros f l c. unfold nrange. rewrite in_map_iff. split.
  - intros [i [H1 H2]]. apply in_seq in H2. lia.
  - intro H. exists (N.to_nat (c - f)). split; [lia|]. apply in_seq. lia.
Qed.

Lemma nrange_NoDup : forall f l, NoDup (nrange f l).
Proof.
  intros f l. unfold nrange. apply FinFun.Injective_map_NoDup.
  - intros a b H. lia.
  - apply seq_NoDup.
Qed.

Lemma nrange_length : forall f l, length (nrange f l) = N.to_nat (l + 1 - f).
Proof. intros f l. unfold nrange. rewrite map_length, seq_length. reflexivity. Qed.

Lemma nrange_cons : forall f l, f <= l -> nrange f l = f :: nrange (f + 1) l.
Proof.
  intros f l H. unfold nrange.
  replace (N.to_nat (l + 1 - f)) with (S (N.to_nat (l + 1 - (f + 1)))) by lia.
  simpl seq. rewrite <- seq_shift. simpl map. f_equal; [lia|].
  rewrite map_map. apply map_ext. intro a. lia.
Qed.

Lemma nrange_empty : forall f l, l < f -> nrange f l = [].
Proof.
  intros f l H. unfold nrange. replace (N.to_nat (l + 1 - f)) with 0%nat by lia. reflexivity.
Qed.

Lemma nrange_app_last : forall f l, f <= l + 1 -> nrange f (l + 1) = nrange f l ++ [l + 1].
Proof.
  intros f l H. unfold nrange.
  replace (N.to_nat (l + 1 + 1 - f)) with (N.to_nat (l + 1 - f) + 1)%nat by lia.
  rewrite seq_app, map_app. simpl. do 2 f_equal. lia.
Qed.

(** [remove1], [dedup]. *)
Lemma remove1_In_sub : forall A (eqb : A -> A -> bool) x y l, In y (remove1 eqb x l) -> In y l.
Proof.
  induction l as [|z l IH]; simpl; intro H; auto.
  destruct (eqb x z); auto. destruct H as [H|H]; auto.
Qed.

Lemma remove1_other : forall A (eqb : A -> A -> bool),
  (forall a b, eqb a b = true <-> a = b) ->
  forall x y l, x <> y -> (In y (remove1 eqb x l) <-> In y l).
Proof.
  intros A eqb Heq x y l Hne. split; [apply remove1_In_sub|].
  induction l as [|z l IH]; simpl; intro H; auto.
  destruct (eqb x z) eqn:E.
  - apply Heq in E. subst. destruct H as [H|H]; auto. contradiction.
  - destruct H as [H|H]; simpl; auto.
Qed.

Lemma remove1_NoDup : forall A (eqb : A -> A -> bool) x l, NoDup l -> NoDup (remove1 eqb x l).
Proof.
  induction l as [|z l IH]; simpl; intro H; auto.
  inversion H as [|? ? Hni Hnd]; subst. destruct (eqb x z); auto.
  constructor; auto. intro Hc. apply Hni. eapply remove1_In_sub; eauto.
Qed.

Lemma remove1_gone : forall A (eqb : A -> A -> bool),
  (forall a b, eqb a b = true <-> a = b) ->
  forall x l, NoDup l -> ~ In x (remove1 eqb x l).
Proof.
  intros A eqb Heq x. induction l as [|z l IH]; simpl; intro H; auto.
  inversion H as [|? ? Hni Hnd]; subst. destruct (eqb x z) eqn:E.
  - apply Heq in E. subst. exact Hni.
  - simpl. intros [Hc|Hc].
    + subst. assert (eqb x x = true) by (apply Heq; reflexivity). congruence.
    + apply IH; auto.
Qed.

Lemma remove1_notin : forall A (eqb : A -> A -> bool),
  (forall a b, eqb a b = true <-> a = b) ->
  forall x l, ~ In x l -> remove1 eqb x l = l.
Proof.
  intros A eqb Heq x. induction l as [|z l IH]; simpl; intro H; auto.
  destruct (eqb x z) eqn:E.
  - apply Heq in E. subst. exfalso. auto.
  - f_equal. auto.
Qed.

Lemma remove1_length : forall A (eqb : A -> A -> bool),
  (forall a b, eqb a b = true <-> a = b) ->
  forall x l, In x l -> length l = S (length (remove1 eqb x l)).
Proof.
  intros A eqb Heq x. induction l as [|z l IH]; simpl; intro H; [contradiction|].
  destruct (eqb x z) eqn:E; auto. simpl. f_equal. apply IH.
  destruct H as [H|H]; auto. subst.
  assert (eqb x x = true) by (apply Heq; reflexivity). congruence.
Qed.

Lemma dedup_aux_In : forall A (eqb : A -> A -> bool),
  (forall a b, eqb a b = true <-> a = b) ->
  forall l seen x, In x (dedup_aux eqb seen l) <-> In x l /\ ~ In x seen.
Proof.
  intros A eqb Heq. induction l as [|y l IH]; simpl; intros seen x; [tauto|].
  destruct (memb eqb y seen) eqn:E.
  - apply (memb_In _ _ Heq) in E. rewrite IH. split; [tauto|].
    intros [[H|H] H']; [subst; contradiction|auto].
  - apply (memb_false _ _ Heq) in E. simpl. rewrite IH. simpl.
    assert (Hd : y = x \/ y <> x).
    { destruct (eqb y x) eqn:Exy; [left; apply Heq; exact Exy|right].
      intro Hc. apply Heq in Hc. congruence. }
    split.
    + intros [H|[H1 H2]]; [subst; auto|]. auto.
    + intros [[H|H] H']; auto. destruct Hd as [Hd|Hd]; auto. right. split; auto.
      intros [Hc|Hc]; auto.
Qed.

Lemma dedup_In : forall A (eqb : A -> A -> bool),
  (forall a b, eqb a b = true <-> a = b) ->
  forall l x, In x (dedup eqb l) <-> In x l.
Proof. intros A eqb Heq l x. unfold dedup. rewrite (dedup_aux_In _ _ Heq). simpl. tauto. Qed.

Lemma dedup_aux_NoDup : forall A (eqb : A -> A -> bool),
  (forall a b, eqb a b = true <-> a = b) ->
  forall l seen, NoDup (dedup_aux eqb seen l).
Proof.
  intros A eqb Heq. induction l as [|y l IH]; simpl; intro seen; [constructor|].
  destruct (memb eqb y seen); auto. constructor; auto.
  rewrite (dedup_aux_In _ _ Heq). simpl. tauto.
Qed.

Lemma dedup_NoDup : forall A (eqb : A -> A -> bool),
  (forall a b, eqb a b = true <-> a = b) ->
  forall l, NoDup (dedup eqb l).
Proof. intros A eqb Heq l. apply dedup_aux_NoDup. exact Heq. Qed.

Lemma string_eqb_iff : forall a b, String.eqb a b = true <-> a = b.
Proof. exact String.eqb_eq. Qed.
Lemma N_eqb_iff : forall a b, N.eqb a b = true <-> a = b.
Proof. exact N.eqb_eq. Qed.

Lemma NoDup_app_iff : forall A (l1 l2 : list A),
  NoDup (l1 ++ l2) <-> NoDup l1 /\ NoDup l2 /\ (forall x, In x l1 -> ~ In x l2).
Proof.
  induction l1 as [|x l1 IH]; simpl; intro l2.
  - split; intro H; [repeat split; auto; constructor|tauto].
  - split.
    + intro H. inversion H as [|? ? Hni Hnd]; subst. apply IH in Hnd.
      destruct Hnd as [H1 [H2 H3]]. rewrite in_app_iff in Hni. repeat split; auto.
      * constructor; auto.
      * intros y [Hy|Hy]; subst; auto.
    + intros [H1 [H2 H3]]. inversion H1 as [|? ? Hni Hnd]; subst. constructor.
      * rewrite in_app_iff. intros [Hc|Hc]; auto. apply (H3 x); auto.
      * apply IH. repeat split; auto.
Qed.
