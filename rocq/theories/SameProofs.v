(** Evaluations of labels depend only on the entries of the repertoire. *)
From Coq Require Import Sorting.Sorted Permutation.
From Verif Require Import Base BaseFacts CharModel RepSpec RepProofs VariantProofs ActionModel LabelModel LabelSpec LabelProofs LabelGen SerialProofs SameSpec.
Open Scope list_scope.

Lemma same_use_len : forall a b, same_use a b -> ch_len b = ch_len a.
Proof. intros a b [H _]. unfold ch_len. rewrite H. reflexivity. Qed.
Lemma same_use_prefix : forall a b w, same_use a b -> is_prefix_of b w = is_prefix_of a w.
Proof. intros a b w [H _]. unfold is_prefix_of. rewrite H. reflexivity. Qed.
Lemma same_use_ctx : forall rm a b l i, same_use a b -> ctx_char rm b l i = ctx_char rm a l i.
Proof. intros rm a b l i [H1 [H2 [H3 _]]]. unfold ctx_char. rewrite H1, H2, H3. reflexivity. Qed.
Lemma same_use_failed : forall a b, same_use a b -> failed_rule b = failed_rule a.
Proof. intros a b [_ [H2 [H3 _]]]. unfold failed_rule. rewrite H2, H3. reflexivity. Qed.
Lemma same_variants_refl : forall l, Forall2 same_variant l l.
Proof. intro l. induction l; constructor; [repeat split|assumption]. Qed.
Lemma same_use_refl : forall ch, same_use ch ch.
Proof. intro ch. repeat split. apply same_variants_refl. Qed.
Lemma same_variant_ctx : forall rm v v' l i, same_variant v v' -> ctx_var rm v' l i = ctx_var rm v l i.
Proof. intros rm v v' l i [H1 [_ [H2 H3]]]. unfold ctx_var. rewrite H1, H2, H3. reflexivity. Qed.

(** ** Generic facts about related lists *)
Lemma Forall2_filter : forall A (R : A -> A -> Prop) f f' l l', Forall2 R l l' -> (forall a b, R a b -> f' b = f a) -> Forall2 R (filter f l) (filter f' l').
Proof. intros A R f f' l l' H Hf. induction H as [|a b l l' Hab _ IH]; [constructor|]. cbn [filter]. rewrite (Hf a b Hab). destruct (f a); [constructor; assumption|assumption]. Qed.
Lemma Forall2_app_inv : forall A (R : A -> A -> Prop) a a' b b', Forall2 R a a' -> Forall2 R b b' -> Forall2 R (a ++ b) (a' ++ b').
Proof. intros A R a a' b b' H. induction H; cbn [app]; auto. Qed.
Lemma Forall2_flat : forall A B (R : A -> A -> Prop) (S : B -> B -> Prop) f f' l l', Forall2 R l l' -> (forall a b, R a b -> Forall2 S (f a) (f' b)) -> Forall2 S (flat_map f l) (flat_map f' l').
Proof. intros A B R S f f' l l' H Hf. induction H as [|a b l l' Hab _ IH]; [constructor|]. cbn [flat_map]. apply Forall2_app_inv; auto. Qed.
Lemma Forall2_map2 : forall A B (R : A -> A -> Prop) (S : B -> B -> Prop) f f' l l', Forall2 R l l' -> (forall a b, R a b -> S (f a) (f' b)) -> Forall2 S (map f l) (map f' l').
Proof. intros A B R S f f' l l' H Hf. induction H; cbn [map]; constructor; auto. Qed.
Lemma Forall2_map_eq : forall A B (R : A -> A -> Prop) (f f' : A -> B) l l', Forall2 R l l' -> (forall a b, R a b -> f' b = f a) -> map f' l' = map f l.
Proof. intros A B R f f' l l' H Hf. induction H as [|a b l l' Hab _ IH]; [reflexivity|]. cbn [map]. rewrite (Hf a b Hab), IH. reflexivity. Qed.
Lemma Forall2_flat_eq : forall A B (R : A -> A -> Prop) (f f' : A -> list B) l l', Forall2 R l l' -> (forall a b, R a b -> f' b = f a) -> flat_map f' l' = flat_map f l.
Proof. intros A B R f f' l l' H Hf. induction H as [|a b l l' Hab _ IH]; [reflexivity|]. cbn [flat_map]. rewrite (Hf a b Hab), IH. reflexivity. Qed.
Lemma Forall2_length' : forall A (R : A -> A -> Prop) l l', Forall2 R l l' -> length l = length l'.
Proof. intros A R l l' H. induction H; cbn; congruence. Qed.
Arguments Forall2_length' {A} R.
Definition same_opt {A} (R : A -> A -> Prop) (x x' : option A) : Prop := match x, x' with Some a, Some a' => R a a' | None, None => True | _, _ => False end.
Lemma flat_mapM_same : forall A B (R : A -> A -> Prop) (S : B -> B -> Prop) f f' l l', Forall2 R l l' -> (forall a b, R a b -> same_opt (Forall2 S) (f a) (f' b)) ->
  same_opt (Forall2 S) (flat_mapM f l) (flat_mapM f' l').
Proof.
  intros A B R S f f' l l' H Hf. induction H as [|a b l l' Hab _ IH]; [constructor|]. cbn [flat_mapM]. pose proof (Hf a b Hab) as K.
  destruct (f a) as [x|], (f' b) as [x'|]; cbn in K; try contradiction; [|exact I].
  destruct (flat_mapM f l) as [y|], (flat_mapM f' l') as [y'|]; cbn in IH; try contradiction; [|exact I]. cbn. apply Forall2_app_inv; assumption.
Qed.
Lemma flat_mapM_skip : forall A B (p : A -> bool) (f : A -> option (list B)) l, (forall a, In a l -> p a = false -> f a = Some []) -> flat_mapM f l = flat_mapM f (filter p l).
Proof.
  intros A B p f l H. induction l as [|a l IH]; [reflexivity|]. cbn [flat_mapM filter]. rewrite IH by (intros b Hb; apply H; right; exact Hb).
  destruct (p a) eqn:E; [reflexivity|]. rewrite (H a (or_introl eq_refl) E). destruct (flat_mapM f (filter p l)); reflexivity.
Qed.
Lemma find_filter : forall A (p : A -> bool) l, find p l = match filter p l with [] => None | x :: _ => Some x end.
Proof. intros A p l. induction l as [|a l IH]; [reflexivity|]. cbn [find filter]. destruct (p a); [reflexivity|exact IH]. Qed.
Lemma filter_filter : forall A (p q : A -> bool) l, filter p (filter q l) = filter (fun x => q x && p x)%bool l.
Proof. intros A p q l. induction l as [|a l IH]; [reflexivity|]. cbn [filter]. destruct (q a); cbn [filter andb]; rewrite IH; reflexivity. Qed.

(** Lists sorted by strictly decreasing length with the same members are equal. *)
Definition longer_cps (a b : cps) : Prop := (length b < length a)%nat.
Lemma strictly_sorted_eq : forall l l', StronglySorted longer_cps l -> StronglySorted longer_cps l' -> (forall c, In c l <-> In c l') -> l = l'.
Proof.
  induction l as [|a l IH]; intros l' S S' H.
  - destruct l' as [|b l']; [reflexivity|]. destruct (proj2 (H b) (or_introl eq_refl)).
  - destruct l' as [|b l']; [destruct (proj1 (H a) (or_introl eq_refl))|].
    inversion S as [|? ? S1 F1]; subst. inversion S' as [|? ? S2 F2]; subst. rewrite Forall_forall in F1, F2.
    assert (E : a = b).
    { destruct (proj1 (H a) (or_introl eq_refl)) as [E|Ha]; [congruence|]. destruct (proj2 (H b) (or_introl eq_refl)) as [E|Hb]; [congruence|].
      specialize (F1 b Hb). specialize (F2 a Ha). unfold longer_cps in *. lia. }
    subst b. f_equal. apply IH; [assumption|assumption|]. intro c. split; intro Hc.
    + destruct (proj1 (H c) (or_intror Hc)) as [E|K]; [|exact K]. subst c. specialize (F1 a Hc). unfold longer_cps in F1. lia.
    + destruct (proj2 (H c) (or_intror Hc)) as [E|K]; [|exact K]. subst c. specialize (F2 a Hc). unfold longer_cps in F2. lia.
Qed.
Lemma prefix_length_eq : forall (a b w : cps), prefixb a w = true -> prefixb b w = true -> length a = length b -> a = b.
Proof.
  intros a b w Ha Hb Hl. apply prefixb_spec in Ha. apply prefixb_spec in Hb. destruct Ha as [t ->], Hb as [u Hu].
  revert b Hl Hu. induction a as [|x a IH]; intros [|y b] Hl Hu; try discriminate; [reflexivity|]. cbn in Hl, Hu. injection Hu as -> Hu. f_equal. apply IH; [lia|exact Hu].
Qed.
Lemma prefixes_sorted : forall w l, StronglySorted longer l -> NoDup (map ch_cp l) -> (forall c, In c l -> is_prefix_of c w = true) -> StronglySorted longer_cps (map ch_cp l).
Proof.
  intros w l S N P. induction S as [|a l S IH F]; [constructor|]. cbn [map] in *. inversion N as [|? ? N1 N2]; subst. constructor; [apply IH; [exact N2|intros c Hc; apply P; right; exact Hc]|].
  rewrite Forall_forall in *. intros c Hc. apply in_map_iff in Hc. destruct Hc as [b [<- Hb]]. unfold longer_cps.
  specialize (F b Hb). unfold longer, len_geb in F. apply Nat.leb_le in F.
  destruct (Nat.eq_dec (length (ch_cp b)) (length (ch_cp a))) as [E|E]; [|lia]. exfalso. apply N1.
  rewrite <- (prefix_length_eq (ch_cp b) (ch_cp a) w (P b (or_intror Hb)) (P a (or_introl eq_refl)) E). apply in_map. exact Hb.
Qed.
Lemma sorted_filter : forall p l, StronglySorted longer l -> StronglySorted longer (filter p l).
Proof.
  intros p l H. induction H as [|a l S IH F]; [constructor|]. cbn [filter]. destruct (p a); [|exact IH]. constructor; [exact IH|].
  rewrite Forall_forall in *. intros x Hx. apply F. apply filter_In in Hx. apply Hx.
Qed.

Section Same.
  Variable rm : rule_oracle.
  Variables r r' : repertoire.
  Hypothesis Hwf : wf_rep r.
  Hypothesis Hwf' : wf_rep r'.
  Hypothesis Hsame : same_uses r r'.

  Lemma entry_same : forall ch ch', entry r ch -> entry r' ch' -> ch_cp ch' = ch_cp ch -> same_use ch ch'.
  Proof. intros ch ch' H H' E. specialize (Hsame (ch_cp ch)). unfold entry in H, H'. rewrite E in H'. rewrite H, H' in Hsame. exact Hsame. Qed.
  Lemma entry_over : forall ch, entry r ch -> exists ch', entry r' ch' /\ same_use ch ch'.
  Proof.
    intros ch H. specialize (Hsame (ch_cp ch)). unfold entry in H. rewrite H in Hsame. destruct (lookup r' (ch_cp ch)) as [ch'|] eqn:E; [|contradiction].
    exists ch'. split; [|exact Hsame]. unfold entry. destruct Hsame as [K _]. rewrite K. exact E.
  Qed.
  Lemma entry_back : forall ch', entry r' ch' -> exists ch, entry r ch /\ same_use ch ch'.
  Proof.
    intros ch' H. specialize (Hsame (ch_cp ch')). unfold entry in H. rewrite H in Hsame. destruct (lookup r (ch_cp ch')) as [ch|] eqn:E; [|contradiction].
    exists ch. split; [|exact Hsame]. unfold entry. destruct Hsame as [K _]. rewrite <- K. exact E.
  Qed.
  Lemma same_use_has : forall ch ch', entry r ch -> entry r' ch' -> same_use ch ch' -> has_variant ch' = has_variant ch.
  Proof.
    intros ch ch' H H' [_ [_ [_ E]]]. pose proof (has_variant_iff r ch Hwf H) as A. pose proof (has_variant_iff r' ch' Hwf' H') as B0.
    assert (B : has_variant ch' = true <-> get_variants ch <> []) by (rewrite B0; inversion E; split; congruence).
    destruct (has_variant ch), (has_variant ch'); try reflexivity; exfalso; [apply (eq_true_false_abs false (proj2 B (proj1 A eq_refl)) eq_refl)|apply (eq_true_false_abs false (proj2 A (proj1 B eq_refl)) eq_refl)].
  Qed.
  Lemma same_use_seq : forall ch ch', entry r ch -> entry r' ch' -> same_use ch ch' -> is_seq ch' = is_seq ch.
  Proof.
    intros ch ch' H H' [E _]. apply entry_lk in H. apply entry_lk in H'. pose proof (lk_wf _ _ _ Hwf H) as [_ A]. pose proof (lk_wf _ _ _ Hwf' H') as [_ B]. unfold is_seq. rewrite E in B.
    destruct (ch_kind ch), (ch_kind ch'); try reflexivity; exfalso;
      repeat match goal with
      | K : exists _, _ |- _ => destruct K
      | K : _ /\ _ |- _ => destruct K
      end; congruence.
  Qed.
  Lemma same_use_reflexive : forall ch ch', entry r ch -> entry r' ch' -> same_use ch ch' -> Forall2 same_variant (get_reflexive_variants ch) (get_reflexive_variants ch').
  Proof.
    intros ch ch' H H' [E [_ [_ V]]]. apply entry_lk in H. apply entry_lk in H'. pose proof (lk_wf _ _ _ Hwf H) as A. pose proof (lk_wf _ _ _ Hwf' H') as B.
    change (Forall2 same_variant (under (ch_cp ch) ch) (under (ch_cp ch') ch')). rewrite (under_wf ch' _ B), (under_wf ch _ A), E. unfold aimed.
    apply Forall2_filter; [exact V|]. intros v w [K _]. rewrite K. reflexivity.
  Qed.

  Definition here (a b : char) : Prop := entry r a /\ entry r' b /\ same_use a b.
  Lemma here_same : forall a b, here a b -> same_use a b.
  Proof. intros a b H. apply H. Qed.

  (** What starts with a code point in either repertoire. *)
  Definition found (q : repertoire) (x : N) (ov : bool) : list char := match get_chars_from_prefix q x ov with Ok l => l | Raise _ => [] end.
  Lemma found_sorted : forall q x ov, StronglySorted longer (found q x ov).
  Proof.
    intros q x ov. unfold found, get_chars_from_prefix. destruct (dget N.eqb x (rep_chars q)); [|constructor]. apply isort_sorted; [apply len_geb_total|apply len_geb_trans].
  Qed.
  Lemma found_In : forall q x ov ch, wf_rep q -> (In ch (found q x ov) <-> entry q ch /\ (exists t, ch_cp ch = x :: t) /\ (ov = true -> has_variant ch = true)).
  Proof.
    intros q x ov ch W. unfold found. destruct ov.
    - pose proof (prefix_cases_var q x W) as H. destruct (get_chars_from_prefix q x true); [rewrite (proj1 H ch); tauto|].
      split; [intros []|]. intros [H1 [[t H2] _]]. exfalso. exact (H ch H1 t H2).
    - pose proof (prefix_cases q x W) as H. destruct (get_chars_from_prefix q x false); [rewrite (proj1 H ch); split; [intros [H1 H2]; split; [exact H1|split; [exact H2|discriminate]]|tauto]|].
      split; [intros []|]. intros [H1 [[t H2] _]]. exfalso. exact (H ch H1 t H2).
  Qed.
  Lemma found_NoDup : forall q x ov, wf_rep q -> NoDup (map ch_cp (found q x ov)).
  Proof.
    intros q x ov W. assert (N : NoDup (found q x ov)).
    { unfold found. destruct ov.
      - pose proof (prefix_cases_var q x W) as H. destruct (get_chars_from_prefix q x true); [apply H|constructor].
      - pose proof (prefix_cases q x W) as H. destruct (get_chars_from_prefix q x false); [apply H|constructor]. }
    assert (K : forall a b, In a (found q x ov) -> In b (found q x ov) -> ch_cp a = ch_cp b -> a = b).
    { intros a b Ha Hb E. apply found_In in Ha; [|exact W]. apply found_In in Hb; [|exact W]. destruct Ha as [Ha _], Hb as [Hb _]. unfold entry in *. rewrite E in Ha. congruence. }
    revert K. induction N as [|a l H1 _ IH]; intro K; [constructor|]. cbn [map]. constructor; [|apply IH; intros; apply K; auto; right; assumption].
    intro H. apply in_map_iff in H. destruct H as [b [E Hb]]. apply H1. rewrite (K a b (or_introl eq_refl) (or_intror Hb) (eq_sym E)). exact Hb.
  Qed.
  Lemma found_filter : forall q x ov p, wf_rep q -> NoDup (map ch_cp (filter p (found q x ov))).
  Proof.
    intros q x ov p W. pose proof (found_NoDup q x ov W) as N. induction (found q x ov) as [|a l IH]; [constructor|]. cbn [map] in N. inversion N as [|? ? N1 N2]; subst. cbn [filter].
    destruct (p a); [|apply IH; exact N2]. cbn [map]. constructor; [|apply IH; exact N2]. intro H. apply N1. apply in_map_iff in H. destruct H as [b [<- Hb]]. apply filter_In in Hb. apply in_map. apply Hb.
  Qed.
  Lemma found_same : forall x ov w, Forall2 here (filter (fun ch => is_prefix_of ch w) (found r x ov)) (filter (fun ch => is_prefix_of ch w) (found r' x ov)).
  Proof.
    intros x ov w. set (l := filter _ (found r x ov)). set (l' := filter _ (found r' x ov)).
    assert (M : forall ch, In ch l <-> is_prefix_of ch w = true /\ entry r ch /\ (exists t, ch_cp ch = x :: t) /\ (ov = true -> has_variant ch = true)) by (intro ch; unfold l; rewrite filter_In, (found_In r x ov ch Hwf); tauto).
    assert (M' : forall ch, In ch l' <-> is_prefix_of ch w = true /\ entry r' ch /\ (exists t, ch_cp ch = x :: t) /\ (ov = true -> has_variant ch = true)) by (intro ch; unfold l'; rewrite filter_In, (found_In r' x ov ch Hwf'); tauto).
    assert (E : map ch_cp l = map ch_cp l').
    { apply strictly_sorted_eq.
      - apply (prefixes_sorted w); [apply sorted_filter, found_sorted|apply found_filter; exact Hwf|intros c Hc; apply M in Hc; apply Hc].
      - apply (prefixes_sorted w); [apply sorted_filter, found_sorted|apply found_filter; exact Hwf'|intros c Hc; apply M' in Hc; apply Hc].
      - intro c. rewrite !in_map_iff. split; intros [ch [<- H]].
        + apply M in H. destruct H as [H1 [H2 [H3 H4]]]. destruct (entry_over ch H2) as [ch' [H5 H6]]. exists ch'. split; [apply H6|]. apply M'.
          rewrite (same_use_prefix _ _ _ H6), (same_use_has _ _ H2 H5 H6). split; [exact H1|]. split; [exact H5|]. split; [|exact H4]. destruct H6 as [E _]. rewrite E. exact H3.
        + apply M' in H. destruct H as [H1 [H2 [H3 H4]]]. destruct (entry_back ch H2) as [c0 [H5 H6]]. exists c0. split; [symmetry; apply H6|]. apply M.
          rewrite <- (same_use_prefix _ _ _ H6), <- (same_use_has _ _ H5 H2 H6). split; [exact H1|]. split; [exact H5|]. split; [|exact H4]. destruct H6 as [E _]. rewrite <- E. exact H3. }
    assert (I1 : forall ch, In ch l -> entry r ch) by (intros ch H; apply M in H; apply H). assert (I2 : forall ch, In ch l' -> entry r' ch) by (intros ch H; apply M' in H; apply H).
    clearbody l l'. clear M M'. revert l' E I2. induction l as [|a l IH]; intros [|b l'] E I2; try discriminate; [constructor|]. cbn [map] in E. injection E as E1 E2. constructor.
    - split; [apply I1; left; reflexivity|]. split; [apply I2; left; reflexivity|]. apply entry_same; [apply I1; left; reflexivity|apply I2; left; reflexivity|congruence].
    - apply IH; [intros c Hc; apply I1; right; exact Hc|exact E2|intros c Hc; apply I2; right; exact Hc].
  Qed.
  Lemma raises_same : forall x ov, match get_chars_from_prefix r x ov, get_chars_from_prefix r' x ov with Ok _, Ok _ => True | Raise e, Raise e' => e' = e | _, _ => False end.
  Proof.
    intros x ov. assert (G : forall q, wf_rep q -> (exists l, get_chars_from_prefix q x ov = Ok l) <-> exists ch t, entry q ch /\ ch_cp ch = x :: t).
    { intros q W. unfold get_chars_from_prefix. pose proof (bucket_entry q x) as Hb. unfold bucket in Hb. destruct (dget N.eqb x (rep_chars q)) as [l|] eqn:E.
      - split; [|eauto]. intros _. destruct W as [W1 [W2 W3]]. pose proof (dget_In _ N_eqb_iff _ _ _ E) as K. apply W2 in K. destruct K as [K _]. destruct l as [|ch l]; [contradiction|].
        destruct (proj1 (Hb ch (conj W1 (conj W2 W3))) (or_introl eq_refl)) as [H1 [t H2]]. eauto.
      - split; [intros [l H]; discriminate|]. intros [ch [t [H1 H2]]]. destruct (proj2 (Hb ch W) (conj H1 (ex_intro _ t H2))). }
    assert (Hraise : forall q e, get_chars_from_prefix q x ov = Raise e -> e = NotInLGR [x]) by (intros q e; unfold get_chars_from_prefix; destruct (dget N.eqb x (rep_chars q)); congruence).
    destruct (get_chars_from_prefix r x ov) as [l|e] eqn:E, (get_chars_from_prefix r' x ov) as [l'|e'] eqn:E'; try exact I.
    - destruct (proj1 (G r Hwf) (ex_intro _ l E)) as [ch [t [H1 H2]]]. destruct (entry_over ch H1) as [ch' [H3 [H4 _]]].
      destruct (proj2 (G r' Hwf') (ex_intro _ ch' (ex_intro _ t (conj H3 (eq_trans H4 H2))))) as [l' K]. congruence.
    - destruct (proj1 (G r' Hwf') (ex_intro _ l' E')) as [ch [t [H1 H2]]]. destruct (entry_back ch H1) as [c0 [H3 [H4 _]]].
      destruct (proj2 (G r Hwf) (ex_intro _ c0 (ex_intro _ t (conj H3 (eq_trans (eq_sym H4) H2))))) as [l K]. congruence.
    - rewrite (Hraise r e E), (Hraise r' e' E'). reflexivity.
  Qed.

  Definition pre (w : cps) (ch : char) : bool := is_prefix_of ch w.
  Lemma first_prefix : forall q x ov w ch, wf_rep q -> In ch (found q x ov) -> is_seq ch = false -> is_prefix_of ch (x :: w) = true.
  Proof.
    intros q x ov w ch W H S. apply found_In in H; [|exact W]. destruct H as [H1 [[t H2] _]]. pose proof (seq_or_first q x t ch W H1 H2 S) as ->.
    unfold is_prefix_of. rewrite H2. cbn [prefixb]. rewrite N.eqb_refl. reflexivity.
  Qed.
  Lemma here_seq : forall a b, here a b -> is_seq b = is_seq a.
  Proof. intros a b [H1 [H2 H3]]. apply same_use_seq; assumption. Qed.
  Lemma here_has : forall a b, here a b -> has_variant b = has_variant a.
  Proof. intros a b [H1 [H2 H3]]. apply same_use_has; assumption. Qed.
  Lemma here_reflexive : forall a b, here a b -> Forall2 same_variant (get_reflexive_variants a) (get_reflexive_variants b).
  Proof. intros a b [H1 [H2 H3]]. apply same_use_reflexive; assumption. Qed.
  Lemma here_cp : forall a b, here a b -> ch_cp b = ch_cp a.
  Proof. intros a b [_ [_ [H _]]]. exact H. Qed.
  Lemma here_vars : forall a b, here a b -> Forall2 same_variant (get_variants a) (get_variants b).
  Proof. intros a b [_ [_ [_ [_ [_ H]]]]]. exact H. Qed.
  Lemma here_len : forall a b, here a b -> ch_len b = ch_len a.
  Proof. intros a b H. apply same_use_len, here_same, H. Qed.
  Lemma heres_same : forall l l', Forall2 here l l' -> Forall2 same_use l l'.
  Proof. intros l l' H. induction H; constructor; [apply here_same|]; assumption. Qed.

  (** ** Preliminary test *)
  Lemma prelim_try_prefixes : forall label rest i l pending, (forall ch, In ch l -> is_seq ch = false -> is_prefix_of ch rest = true) ->
    prelim_try rm label rest i l pending = prelim_try rm label rest i (filter (pre rest) l) pending.
  Proof.
    intros label rest i l. induction l as [|ch l IH]; intros pending H; [reflexivity|]. cbn [prelim_try filter]. unfold pre at 1.
    destruct (is_prefix_of ch rest) eqn:E.
    - cbn [prelim_try]. rewrite E. rewrite andb_false_r. destruct (negb (ctx_char rm ch label i)); [apply IH; intros c Hc; apply H; right; exact Hc|reflexivity].
    - destruct (is_seq ch) eqn:S; [|rewrite (H ch (or_introl eq_refl) S) in E; discriminate]. cbn [andb negb]. apply IH. intros c Hc. apply H. right. exact Hc.
  Qed.
  Definition same_try (x x' : option char * list (option string)) : Prop := same_opt here (fst x) (fst x') /\ snd x' = snd x.
  Lemma prelim_try_same : forall label rest i l l' pending, Forall2 here l l' -> same_try (prelim_try rm label rest i l pending) (prelim_try rm label rest i l' pending).
  Proof.
    intros label rest i l l' pending H. revert pending. induction H as [|a b l l' Hab _ IH]; intro pending; [split; [exact I|reflexivity]|]. cbn [prelim_try].
    rewrite (here_seq a b Hab), (same_use_prefix a b rest (here_same a b Hab)), (same_use_ctx rm a b label i (here_same a b Hab)), (same_use_failed a b (here_same a b Hab)).
    destruct (is_seq a && negb (is_prefix_of a rest))%bool; [apply IH|]. destruct (negb (ctx_char rm a label i)); [apply IH|]. split; [exact Hab|reflexivity].
  Qed.
  Definition same_prelim (p p' : prelim) : Prop :=
    pr_ok p' = pr_ok p /\ pr_parts p' = pr_parts p /\ pr_invalid p' = pr_invalid p /\ Forall2 here (pr_chars p) (pr_chars p').
  Lemma prelim_loop_same : forall fuel label rest i, same_opt same_prelim (prelim_loop rm r fuel label rest i) (prelim_loop rm r' fuel label rest i).
  Proof.
    induction fuel as [|f IH]; intros label rest i; destruct rest as [|x rest]; cbn [prelim_loop]; try exact I; try (repeat split; constructor; fail).
    assert (Hbad : forall reason, same_opt same_prelim
       match prelim_loop rm r f label rest (S i) with Some p => Some (mkPrelim false (pr_parts p) ((x, reason) :: pr_invalid p) (pr_chars p)) | None => None end
       match prelim_loop rm r' f label rest (S i) with Some p => Some (mkPrelim false (pr_parts p) ((x, reason) :: pr_invalid p) (pr_chars p)) | None => None end).
    { intro reason. pose proof (IH label rest (S i)) as K. destruct (prelim_loop rm r f label rest (S i)), (prelim_loop rm r' f label rest (S i)); cbn in K; try contradiction; [|exact I].
      destruct K as [K1 [K2 [K3 K4]]]. split; [reflexivity|]. split; [exact K2|]. split; [cbn; congruence|exact K4]. }
    pose proof (raises_same x false) as R. pose proof (found_same x false (x :: rest)) as F.
    pose proof (first_prefix r x false rest) as P1. pose proof (first_prefix r' x false rest) as P2. unfold found in F, P1, P2.
    destruct (get_chars_from_prefix r x false) as [l|e], (get_chars_from_prefix r' x false) as [l'|e']; try contradiction; [|apply Hbad].
    rewrite (prelim_try_prefixes label (x :: rest) i l) by (intros ch Hc; apply P1; assumption).
    rewrite (prelim_try_prefixes label (x :: rest) i l') by (intros ch Hc; apply P2; assumption).
    pose proof (prelim_try_same label (x :: rest) i _ _ [] F) as T. unfold pre in *.
    destruct (prelim_try rm label (x :: rest) i (filter (fun ch => is_prefix_of ch (x :: rest)) l) []) as [o p], (prelim_try rm label (x :: rest) i (filter (fun ch => is_prefix_of ch (x :: rest)) l') []) as [o' p'].
    destruct T as [T1 T2]. cbn in T1, T2. subst p'. destruct o as [a|], o' as [b|]; try contradiction; [|destruct p; apply Hbad].
    rewrite (here_len a b T1), (here_cp a b T1). pose proof (IH label (skipn (ch_len a) (x :: rest)) (i + ch_len a)%nat) as K.
    destruct (prelim_loop rm r f label (skipn (ch_len a) (x :: rest)) (i + ch_len a)), (prelim_loop rm r' f label (skipn (ch_len a) (x :: rest)) (i + ch_len a)); cbn in K; try contradiction; [|exact I].
    destruct K as [K1 [K2 [K3 K4]]]. split; [exact K1|]. split; [cbn; congruence|]. split; [exact K3|]. constructor; assumption.
  Qed.
  Lemma preliminary_same : forall label, same_opt same_prelim (preliminary rm r label) (preliminary rm r' label).
  Proof. intro label. apply prelim_loop_same. Qed.

  (** ** Disposition by itself *)
  Lemma entries_at_same : forall label rest i, Forall2 here (entries_at rm r label rest i) (entries_at rm r' label rest i).
  Proof.
    intros label [|x rest] i; [constructor|]. unfold entries_at.
    assert (G : forall q, wf_rep q -> match get_chars_from_prefix q x false with Raise _ => [] | Ok l => filter (fun ch => (negb (is_seq ch) || is_prefix_of ch (x :: rest)) && ctx_char rm ch label i)%bool l end
                = filter (fun ch => ctx_char rm ch label i) (filter (fun ch => is_prefix_of ch (x :: rest)) (found q x false))).
    { intros q W. rewrite filter_filter. pose proof (first_prefix q x false rest) as P. unfold found in *. destruct (get_chars_from_prefix q x false) as [l|e]; [|reflexivity].
      apply filter_ext_in. intros ch Hc. f_equal. destruct (is_seq ch) eqn:S; [reflexivity|]. rewrite (P ch W Hc S). reflexivity. }
    rewrite (G r Hwf), (G r' Hwf'). apply Forall2_filter with (R := here); [apply found_same|]. intros a b H. apply same_use_ctx, here_same, H.
  Qed.
  Lemma refl_collect_same : forall label rest i ar, refl_collect rm r' label rest i ar = refl_collect rm r label rest i ar.
  Proof.
    intros label rest. induction rest as [|x rest IH]; intros i ar; [reflexivity|]. cbn [refl_collect]. rewrite IH.
    rewrite (Forall2_map_eq _ _ here (fun ch => if ar then refl_types rm label i ch else []) (fun ch => if ar then refl_types rm label i ch else []) _ _ (entries_at_same label (x :: rest) i)); [reflexivity|].
    intros a b H. unfold refl_types. destruct ar; [|reflexivity]. apply (Forall2_map_eq _ _ same_variant); [|intros v w Hv; apply Hv].
    apply Forall2_filter; [apply here_reflexive; exact H|]. intros v w Hv. apply same_variant_ctx. exact Hv.
  Qed.
  Variable acts : list action.
  Lemma label_disposition_same : forall label ar, label_disposition rm r' acts label ar = label_disposition rm r acts label ar.
  Proof. intros. unfold label_disposition. rewrite refl_collect_same. reflexivity. Qed.
  Lemma eligible_same : forall label isv, same_res same_elig (test_label_eligible rm r acts label isv) (test_label_eligible rm r' acts label isv).
  Proof.
    intros label isv. unfold test_label_eligible. destruct label as [|x label]; [reflexivity|]. pose proof (preliminary_same (x :: label)) as K.
    destruct (preliminary rm r (x :: label)) as [p|], (preliminary rm r' (x :: label)) as [p'|]; cbn in K; try contradiction; [|reflexivity].
    destruct K as [K1 [K2 [K3 K4]]]. rewrite K1, label_disposition_same. apply heres_same in K4. destruct (negb (pr_ok p)); [repeat split; cbn; assumption|].
    destruct (label_disposition rm r acts (x :: label) (negb isv)) as [d idx]. destruct (ostring_eqb d (Some "invalid"%string)); repeat split; cbn; assumption.
  Qed.

  (** ** Index labels *)
  Lemma partitions_same : forall fuel prefix label, same_opt (Forall2 (Forall2 here)) (partitions rm r fuel prefix label) (partitions rm r' fuel prefix label).
  Proof.
    induction fuel as [|f IH]; intros prefix label; destruct label as [|x label]; cbn [partitions]; try exact I.
    pose proof (raises_same x false) as R. pose proof (found_same x false (x :: label)) as F. unfold found in F.
    destruct (get_chars_from_prefix r x false) as [l|e], (get_chars_from_prefix r' x false) as [l'|e']; try contradiction; [|constructor].
    rewrite (flat_mapM_skip _ _ (fun ch => is_prefix_of ch (x :: label)) _ l) by (intros a _ E; rewrite E; reflexivity).
    rewrite (flat_mapM_skip _ _ (fun ch => is_prefix_of ch (x :: label)) _ l') by (intros a _ E; rewrite E; reflexivity).
    apply (flat_mapM_same _ _ here); [exact F|]. intros a b H. rewrite (same_use_prefix a b _ (here_same a b H)), (same_use_ctx rm a b _ _ (here_same a b H)), (here_len a b H), (here_cp a b H).
    destruct (negb (is_prefix_of a (x :: label))); [constructor|]. destruct (negb (ctx_char rm a (prefix ++ x :: label) (length prefix))); [constructor|].
    destruct (Nat.ltb (ch_len a) (length (x :: label))); [|repeat constructor; apply H].
    pose proof (IH (prefix ++ ch_cp a) (skipn (ch_len a) (x :: label))) as K.
    destruct (partitions rm r f (prefix ++ ch_cp a) (skipn (ch_len a) (x :: label))), (partitions rm r' f (prefix ++ ch_cp a) (skipn (ch_len a) (x :: label))); cbn in K; try contradiction; [|exact I].
    cbn. apply (Forall2_map2 _ _ (Forall2 here)); [exact K|]. intros u v Huv. constructor; assumption.
  Qed.
  Lemma index_on_same : forall l l' prefix, Forall2 here l l' -> index_on rm prefix l' = index_on rm prefix l.
  Proof.
    intros l l' prefix H. revert prefix. induction H as [|a b l l' Hab HH IH]; intro prefix; [reflexivity|]. cbn [index_on]. unfold index_choices.
    rewrite (here_cp a b Hab), IH, (Forall2_flat_eq _ _ here ch_cp ch_cp l l' HH here_cp). do 2 f_equal.
    apply (Forall2_map_eq _ _ same_variant); [|intros v w Hv; apply Hv]. apply Forall2_filter; [exact (here_vars a b Hab)|]. intros v w Hv.
    destruct Hv as [V0 V1]. rewrite V0. apply same_variant_ctx. split; assumption.
  Qed.
  Lemma index_once_same : forall label, index_once rm r' label = index_once rm r label.
  Proof.
    intro label. unfold index_once. destruct label as [|x label]; [reflexivity|]. pose proof (preliminary_same (x :: label)) as K.
    destruct (preliminary rm r (x :: label)) as [p|], (preliminary rm r' (x :: label)) as [p'|]; cbn in K; try contradiction; [|reflexivity].
    destruct K as [K1 [_ [K3 _]]]. rewrite K1, K3. destruct (negb (pr_ok p)); [reflexivity|]. unfold label_partitions. pose proof (partitions_same (length (x :: label)) [] (x :: label)) as P.
    destruct (partitions rm r (length (x :: label)) [] (x :: label)) as [ps|], (partitions rm r' (length (x :: label)) [] (x :: label)) as [ps'|]; cbn in P; try contradiction; [|reflexivity].
    rewrite (Forall2_map_eq _ _ (Forall2 here) (index_on rm []) (index_on rm []) ps ps' P); [reflexivity|]. intros a b H. apply index_on_same. exact H.
  Qed.
  Lemma index_label_same : forall n t label, index_label rm r' n t label = index_label rm r n t label.
  Proof.
    induction n as [|n IH]; intros t label; cbn [index_label]; rewrite index_once_same; [reflexivity|]. destruct (index_once rm r label) as [i|e]; [|reflexivity].
    destruct label as [|x label]; [reflexivity|]. destruct (t && cps_eqb i (x :: label))%bool; [reflexivity|]. rewrite IH. reflexivity.
  Qed.

  (** ** Mixed scripts *)
  Variable script : N -> string.
  Lemma scripts_for_same : forall x cur, scripts_for_char script cur (found r' x true) = scripts_for_char script cur (found r x true).
  Proof.
    intros x cur. unfold scripts_for_char. do 2 f_equal.
    assert (G : forall l, flat_map (fun ch => if is_prefix_of ch cur then flat_map (fun v => map script (v_cp v)) (get_variants ch) else []) l
                = flat_map (fun ch => flat_map (fun v => map script (v_cp v)) (get_variants ch)) (filter (fun ch => is_prefix_of ch cur) l)).
    { intro l. induction l as [|a l IH]; [reflexivity|]. cbn [flat_map filter]. rewrite IH. destruct (is_prefix_of a cur); reflexivity. }
    rewrite !G. apply (Forall2_flat_eq _ _ here); [apply found_same|]. intros a b H. apply (Forall2_flat_eq _ _ same_variant); [exact (here_vars a b H)|].
    intros v w [K _]. rewrite K. reflexivity.
  Qed.
  Lemma scripts_loop_same : forall label cur acc, scripts_loop r' script label cur acc = scripts_loop r script label cur acc.
  Proof.
    induction label as [|x label IH]; intros cur acc; [reflexivity|]. cbn [scripts_loop]. pose proof (raises_same x true) as R. pose proof (scripts_for_same x cur) as F. unfold found in F.
    destruct (get_chars_from_prefix r x true) as [l|e], (get_chars_from_prefix r' x true) as [l'|e']; try contradiction; [|apply IH]. rewrite F. apply IH.
  Qed.
  Lemma other_scripts_same : forall label, other_scripts r' script label = other_scripts r script label.
  Proof. intro label. unfold other_scripts. rewrite scripts_loop_same. reflexivity. Qed.
  Lemma mixed_filter_same : forall label, mixed_filter r' script label = mixed_filter r script label.
  Proof. intro label. unfold mixed_filter. rewrite other_scripts_same. reflexivity. Qed.

  (** ** Variants *)
  Lemma prefix_list_same : forall lp label, same_res (Forall2 here) (prefix_list rm r lp label) (prefix_list rm r' lp label).
  Proof.
    intros lp [|x label]; [reflexivity|]. unfold prefix_list. pose proof (raises_same x true) as R. pose proof (found_same x true (x :: label)) as F. unfold found in F.
    destruct (get_chars_from_prefix r x true) as [l|e], (get_chars_from_prefix r' x true) as [l'|e']; try contradiction; [|exact R]. cbn [bind].
    cbn. rewrite <- !(filter_filter _ (fun ch => ctx_char rm ch (lp ++ ch_cp ch ++ skipn (ch_len ch) (x :: label)) (length lp)) (fun ch => is_prefix_of ch (x :: label))).
    apply Forall2_filter; [exact F|]. intros a b H. rewrite (here_cp a b H), (here_len a b H). apply same_use_ctx, here_same, H.
  Qed.
  Lemma all_from_same : forall label w, Forall2 here (filter (fun ch => is_prefix_of ch w) (all_from r label)) (filter (fun ch => is_prefix_of ch w) (all_from r' label)).
  Proof. intros [|x label] w; [constructor|]. exact (found_same x false w). Qed.
  Lemma same_prefix_same : forall lp label, Forall2 here (same_prefix rm r lp label) (same_prefix rm r' lp label).
  Proof.
    intros lp label. unfold same_prefix.
    set (sp := match prefix_list rm r lp label with Ok [] => _ | Ok l => l | Raise _ => [] end). set (sp' := match prefix_list rm r' lp label with Ok [] => _ | Ok l => l | Raise _ => [] end).
    assert (H : Forall2 here sp sp').
    { unfold sp, sp'. pose proof (prefix_list_same lp label) as P. destruct (prefix_list rm r lp label) as [l|e], (prefix_list rm r' lp label) as [l'|e']; cbn in P; try contradiction; [|constructor].
      inversion P; subst; [|assumption]. rewrite !find_filter. pose proof (all_from_same label label) as A. inversion A; subst; repeat constructor; apply H1. }
    clearbody sp sp'. apply Forall2_app_inv; [exact H|]. apply (Forall2_flat _ _ here here (fun s => filter (fun ch => (Nat.ltb (ch_len ch) (ch_len s) && is_prefix_of ch label)%bool) (all_from r label))).
    - apply Forall2_filter; [exact H|]. apply here_seq.
    - intros a b Hab.
      assert (G : forall q s, filter (fun ch => (Nat.ltb (ch_len ch) (ch_len s) && is_prefix_of ch label)%bool) (all_from q label)
                  = filter (fun ch => Nat.ltb (ch_len ch) (ch_len s)) (filter (fun ch => is_prefix_of ch label) (all_from q label))).
      { intros q s. rewrite filter_filter. apply filter_ext. intro c. apply andb_comm. }
      rewrite !G. apply Forall2_filter; [apply all_from_same|]. intros c d Hcd. rewrite (here_len a b Hab), (here_len c d Hcd). reflexivity.
  Qed.
  Definition same_perm (p p' : perm) : Prop :=
    same_piece (fst (fst (fst p))) (fst (fst (fst p'))) /\ snd (fst (fst p')) = snd (fst (fst p)) /\ snd (fst p') = snd (fst p) /\ snd p' = snd p.
  Lemma same_piece_cp : forall p p', same_piece p p' -> piece_cp p' = piece_cp p.
  Proof. intros p p' H. inversion H as [a b K|a b K]; subst; apply K. Qed.
  Lemma char_perms_same : forall lp label fc flt a b, here a b -> Forall2 same_perm (char_perms rm script lp label fc flt a) (char_perms rm script lp label fc flt b).
  Proof.
    intros lp label fc flt a b H. unfold char_perms. rewrite (here_len a b H), (here_cp a b H).
    set (vs := flat_map (var_perm rm script lp (skipn (ch_len a) label) fc flt) (get_variants a)). set (vs' := flat_map (var_perm rm script lp (skipn (ch_len a) label) fc flt) (get_variants b)).
    assert (V : Forall2 same_perm vs vs').
    { apply (Forall2_flat _ _ same_variant); [exact (here_vars a b H)|]. intros v w Hv. pose proof (fun i l => same_variant_ctx rm v w i l Hv) as C. pose proof (sp_var v w Hv) as P. destruct Hv as [V0 [V1 V2]]. unfold var_perm. rewrite V0, V1, C.
      repeat match goal with |- context [match ?x with _ => _ end] => destruct x end; first [exact (Forall2_nil _)|constructor; [split; [exact P|repeat split]|constructor]]. }
    assert (E : existsb (is_refl_perm b) vs' = existsb (is_refl_perm a) vs).
    { clearbody vs vs'. induction V as [|[[[pc ds] o] f] [[[pc' ds'] o'] f'] q q' [K _] _ IH]; [reflexivity|]. cbn [existsb is_refl_perm]. rewrite IH, (here_cp a b H). cbn in K. rewrite (same_piece_cp _ _ K). reflexivity. }
    rewrite E. destruct (negb (existsb (is_refl_perm a) vs) && match flt with None => true | Some f => fc || cp_in_base script f (ch_cp a) end)%bool; [|exact V].
    constructor; [|exact V]. repeat split. constructor. apply here_same, H.
  Qed.
  Lemma gen_variants_same : forall fuel lp label hv fc flt,
    same_opt (Forall2 same_vlabel) (gen_variants rm r script fuel lp label hv fc flt) (gen_variants rm r' script fuel lp label hv fc flt).
  Proof.
    induction fuel as [|f IH]; intros lp label hv fc flt; destruct label as [|x label]; cbn [gen_variants]; try constructor.
    apply (flat_mapM_same _ _ here); [apply same_prefix_same|]. intros a b H. cbv zeta. rewrite (here_len a b H), (here_has a b H). pose proof (char_perms_same lp (x :: label) fc flt a b H) as P.
    destruct (Nat.ltb (ch_len a) (length (x :: label))).
    - apply (flat_mapM_same _ _ same_perm); [exact P|]. intros [[[pc ds] o] fl] [[[pc' ds'] o'] fl'] [Q1 [Q2 [Q3 Q4]]]. cbn in Q1, Q2, Q3, Q4. subst ds' o' fl'. rewrite (same_piece_cp pc pc' Q1).
      pose proof (IH (lp ++ piece_cp pc) (skipn (ch_len a) (x :: label)) (o || hv)%bool false fl) as K.
      destruct (gen_variants rm r script f (lp ++ piece_cp pc) (skipn (ch_len a) (x :: label)) (o || hv) false fl), (gen_variants rm r' script f (lp ++ piece_cp pc) (skipn (ch_len a) (x :: label)) (o || hv) false fl); cbn in K; try contradiction; [|exact I].
      cbn. apply (Forall2_map2 _ _ same_vlabel); [exact K|]. intros w w' [W1 [W2 [W3 W4]]]. repeat split; cbn; [congruence|congruence|congruence|constructor; assumption].
    - destruct (hv || has_variant a)%bool; [|constructor]. cbn. apply (Forall2_map2 _ _ same_perm); [exact P|]. intros [[[pc ds] o] fl] [[[pc' ds'] o'] fl'] [Q1 [Q2 [Q3 Q4]]].
      cbn in Q1, Q2, Q3, Q4. subst. rewrite (same_piece_cp pc pc' Q1). repeat split; cbn. repeat constructor. exact Q1.
  Qed.
  Lemma label_variants_same : forall label hide, same_opt (Forall2 same_vlabel) (label_variants rm r script label hide) (label_variants rm r' script label hide).
  Proof. intros label hide. unfold label_variants. rewrite mixed_filter_same. apply gen_variants_same. Qed.

  (** ** Listing *)
  Lemma judge_same : forall label w w', same_vlabel w w' -> judge rm r' acts label w' = judge rm r acts label w.
  Proof.
    intros label w w' [W1 [W2 [W3 _]]]. unfold judge. rewrite W1, W2, W3. pose proof (eligible_same (vl_cp w) (negb (cps_eqb (vl_cp w) label))) as E.
    destruct (test_label_eligible rm r acts (vl_cp w) _) as [e|e], (test_label_eligible rm r' acts (vl_cp w) _) as [e'|e']; cbn in E; try contradiction; [|cbn; congruence].
    destruct E as [E1 [_ [E3 [_ [E5 _]]]]]. cbn [bind]. rewrite E1, E3, E5. reflexivity.
  Qed.
  Lemma listing_loop_same : forall label ii gc wl l l' h o, Forall2 same_vlabel l l' -> listing_loop rm r' acts label ii gc wl l' h o = listing_loop rm r acts label ii gc wl l h o.
  Proof.
    intros label ii gc wl l l' h o H. revert h o. induction H as [|w w' l l' Hw _ IH]; intros h o; [reflexivity|]. cbn [listing_loop]. rewrite (judge_same label w w' Hw). destruct Hw as [W1 _]. rewrite W1.
    rewrite !IH. destruct (judge rm r acts label w) as [x|e]; [|reflexivity]. rewrite !IH. reflexivity.
  Qed.
  Lemma compute_same : forall u label ii hide gc wl, compute_label_disposition rm r' acts script u label ii hide gc wl = compute_label_disposition rm r acts script u label ii hide gc wl.
  Proof.
    intros u label ii hide gc wl. unfold compute_label_disposition. destruct (negb u); [reflexivity|]. destruct (Nat.ltb 63 (length label)); [reflexivity|].
    pose proof (label_variants_same label hide) as V. destruct (label_variants rm r script label hide) as [vs|], (label_variants rm r' script label hide) as [vs'|]; cbn in V; try contradiction; [|reflexivity].
    rewrite (listing_loop_same label ii gc wl vs vs' [] None V). destruct (listing_loop rm r acts label ii gc wl vs [] None) as [ys [[o|]|e]]; try reflexivity.
    pose proof (eligible_same label false) as E. destruct (test_label_eligible rm r acts label false) as [e|e], (test_label_eligible rm r' acts label false) as [e'|e']; cbn in E; try contradiction; [|congruence].
    destruct E as [_ [_ [_ [E4 [E5 _]]]]]. rewrite E4, E5. reflexivity.
  Qed.
  Lemma estimate_same : forall label hide, estimate_variant_number rm r' script label hide = estimate_variant_number rm r script label hide.
  Proof.
    intros label hide. unfold estimate_variant_number. pose proof (preliminary_same label) as K.
    destruct (preliminary rm r label) as [p|], (preliminary rm r' label) as [p'|]; cbn in K; try contradiction; [|reflexivity]. destruct K as [_ [_ [_ K]]]. cbv zeta. rewrite mixed_filter_same, other_scripts_same.
    assert (V : forall a b, here a b -> Forall2 same_variant (vars_excl_reflexive a) (vars_excl_reflexive b)).
    { intros a b H. unfold vars_excl_reflexive. rewrite (here_cp a b H). apply Forall2_filter; [exact (here_vars a b H)|]. intros v w [K0 _]. rewrite K0. reflexivity. }
    assert (G : forall f : cps -> bool, map (fun ch => length (filter (fun v => f (v_cp v)) (vars_excl_reflexive ch))) (pr_chars p')
                                   = map (fun ch => length (filter (fun v => f (v_cp v)) (vars_excl_reflexive ch))) (pr_chars p)).
    { intro f. apply (Forall2_map_eq _ _ here _ _ _ _ K). intros a b H. symmetry. apply (Forall2_length' same_variant). apply Forall2_filter; [exact (V a b H)|]. intros v w [K0 _]. rewrite K0. reflexivity. }
    assert (G1 : map (fun ch => S (length (vars_excl_reflexive ch))) (pr_chars p') = map (fun ch => S (length (vars_excl_reflexive ch))) (pr_chars p)).
    { apply (Forall2_map_eq _ _ here _ _ _ _ K). intros a b H. f_equal. symmetry. apply (Forall2_length' same_variant). exact (V a b H). }
    assert (G2 : forall f : cps -> bool, map (fun ch => S (length (filter (fun v => f (v_cp v)) (vars_excl_reflexive ch)))) (pr_chars p')
                                   = map (fun ch => S (length (filter (fun v => f (v_cp v)) (vars_excl_reflexive ch)))) (pr_chars p)).
    { intro f. rewrite <- !(map_map (fun ch => length (filter (fun v => f (v_cp v)) (vars_excl_reflexive ch))) S), (G f). reflexivity. }
    f_equal. destruct hide; [|rewrite G1; reflexivity]. rewrite (G2 (cp_in_base script (mixed_filter r script label))). do 2 f_equal.
    apply map_ext. intro s. rewrite (G (fun c => cp_in_scripts script c [s])). reflexivity.
  Qed.
End Same.
