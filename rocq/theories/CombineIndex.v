(** Two LGRs agreeing on common code points give labels the same index. *)
From Verif Require Import Base BaseFacts CharModel RepSpec RepProofs VariantProofs ActionModel LabelModel LabelSpec LabelProofs LabelIndex RefModel LgrModel LgrSpec LgrProofs LgrInv LgrTags LgrRefs LgrReach
  CompareModel CompareFinal PopulateModel PopulateSpec PopulateProofs PopulateFinal ValidateModel ValidateSpec ValidateProofs HarmonizeModel HarmonizeSpec HarmonizeProofs HarmonizeFinal HarmonizeCopy PopToolProofs CombineSpec CombineHarm.
Open Scope N_scope.
Open Scope list_scope.

Definition agreeing (r s : repertoire) : Prop := forall a b, a <> b -> lookup r a <> None -> lookup s a <> None -> (has_target r a b <-> has_target s a b).
Definition singles (r : repertoire) : Prop := forall a, lookup r a <> None \/ (exists c, has_target r c a) -> exists x, a = [x].

Lemma maps_target : forall r x y, maps_to r x y <-> has_target r [x] [y].
Proof.
  intros r x y. unfold maps_to, has_target, mapping. split; [intros [ch [v [H1 [H2 H3]]]]; exists v, ch; auto|intros [v [ch [H1 [H2 H3]]]]; exists ch, v; auto].
Qed.
Lemma variant_labels_iff : forall r a b, variant_labels r a b <-> Forall2 (interchangeable r) a b.
Proof.
  intros r a b. unfold variant_labels, interchangeable. split; intro H; induction H as [|x y a b [->|H] F IH]; constructor; auto; right; apply maps_target; exact H.
Qed.
Lemma letters_simple : forall r, letters r -> symmetric r -> transitive r -> simple_lgr r.
Proof.
  intros r L S T. constructor.
  - intros ch H. destruct (L _ _ H) as [X _]. exact X.
  - intros ch H. destruct (L _ _ H) as [_ [A [B _]]]. auto.
  - intros ch v H Hv. destruct (L _ _ H) as [_ [_ [_ V]]]. destruct (V v Hv) as [A [B [y C]]]. split; [exact A|]. split; [exact B|]. exists y. split; [exact C|].
    assert (K : has_target r (ch_cp ch) [y]) by (exists v, ch; auto). apply (S _ _ K).
  - intros x y H. apply maps_target. apply maps_target in H. apply (S _ _ H).
  - intros x y z H G. rewrite maps_target in H, G. destruct (N.eq_dec x z) as [->|N]; [left; reflexivity|]. right. apply maps_target. destruct (T _ _ H) as [_ K]. apply K; [exact G|congruence].
Qed.
Lemma freed_letters : forall g, freed no_context g -> singles (lg_rep g) -> letters (lg_rep g).
Proof.
  intros g [W A] S c ch H. split; [apply S; left; congruence|]. rewrite lookup_lk in H. destruct (A _ _ H) as [[F1 F2] F3]. split; [exact F1|]. split; [exact F2|].
  intros v Hv. destruct (F3 v Hv) as [V1 V2]. split; [exact V1|]. split; [exact V2|]. apply S. right. exists c, v, ch. rewrite lookup_lk. auto.
Qed.
Lemma letters_freed : forall g, wf_rep (lg_rep g) -> letters (lg_rep g) -> freed no_context g /\ singles (lg_rep g).
Proof.
  intros g W L. split.
  - split; [exact W|]. intros c ch H. rewrite <- lookup_lk in H. destruct (L _ _ H) as [_ [A [B V]]]. split; [split; assumption|]. intros v Hv. destruct (V v Hv) as [V1 [V2 _]]. split; assumption.
  - intros a [H|[c [v [ch [H1 [H2 H3]]]]]].
    + destruct (lookup (lg_rep g) a) as [ch|] eqn:E; [|congruence]. apply (L _ _ E).
    + destruct (L _ _ H1) as [_ [_ [_ V]]]. rewrite <- H3. apply (V v H2).
Qed.
Lemma completed_singles : forall r s t, completed r s t -> singles r -> singles s -> singles t.
Proof.
  intros r s t C Hr Hs a Ha. assert (L : lookup t a <> None) by (destruct Ha as [Ha|[c Ha]]; [exact Ha|apply (co_symmetric _ _ _ C) in Ha; apply Ha]).
  apply (co_entries _ _ _ C) in L. destruct L as [L|[y [L|[_ L]]]]; [apply Hr|apply Hr|apply Hs]; auto; right; exists y; exact L.
Qed.

(** ** Two simple LGRs *)
Section Two.
  Variables (rm rm' : rule_oracle) (r s : repertoire).
  Hypotheses (Rr : reachable r) (Rs : reachable s) (Sr : simple_lgr r) (Ss : simple_lgr s) (Ag : agreeing r s).
  Lemma agree_inter : forall x y, lookup r [x] <> None -> lookup s [x] <> None -> (interchangeable r x y <-> interchangeable s x y).
  Proof.
    intros x y H1 H2. unfold interchangeable. destruct (N.eq_dec x y) as [->|N]; [tauto|]. assert (M : maps_to r x y <-> maps_to s x y); [|tauto].
    rewrite !maps_target. apply Ag; auto. congruence.
  Qed.
  Lemma agree_least : forall x m, lookup r [x] <> None -> lookup s [x] <> None -> (least r x m <-> least s x m).
  Proof.
    intros x m H1 H2. unfold least. rewrite (agree_inter x m H1 H2). split; intros [A B]; (split; [exact A|]); intros y Hy; apply B; apply (agree_inter x y H1 H2); exact Hy.
  Qed.
  Lemma index_has : forall rm0 q a, reachable q -> simple_lgr q -> in_lgr q a -> exists i, has_index rm0 q a i /\ Forall2 (least q) a i /\ in_lgr q i /\ Forall2 (interchangeable q) a i.
  Proof.
    intros rm0 q a Hq Sq Ha. destruct (simple_index rm0 q Hq Sq a Ha) as [i [I1 I2]]. destruct (simple_index_canonical rm0 q Hq Sq a Ha) as [m [M1 [M2 [_ [M4 [_ [_ M7]]]]]]].
    assert (m = i) by congruence. subst m. exists i. split; [split; assumption|]. auto.
  Qed.
  Lemma same_index : forall a, in_lgr r a -> in_lgr s a -> exists i, has_index rm r a i /\ has_index rm' s a i.
  Proof.
    intros a Ha Hb. destruct (index_has rm r a Rr Sr Ha) as [i [I1 [I2 _]]]. destruct (index_has rm' s a Rs Ss Hb) as [j [J1 [J2 _]]].
    assert (E : i = j); [|subst j; eauto]. apply (Forall2_least_unique r a); [exact I2|]. clear - J2 Ha Hb Ag. induction J2 as [|x m a j H F IH]; constructor.
    - apply (agree_least x m); [apply Ha; left; reflexivity|apply Hb; left; reflexivity|exact H].
    - apply IH; intros y Hy; [apply Ha|apply Hb]; right; exact Hy.
  Qed.
  Lemma inter_in : forall q a b, simple_lgr q -> in_lgr q a -> Forall2 (interchangeable q) a b -> in_lgr q b.
  Proof.
    intros q a b Sq Ha F. induction F as [|x y a b H F IH]; [intros z []|]. intros z [<-|Hz].
    - destruct H as [->|H]; [apply Ha; left; reflexivity|]. apply (sl_symmetric q Sq) in H. destruct H as [ch [v [H _]]]. congruence.
    - apply IH; auto. intros w Hw. apply Ha. right. exact Hw.
  Qed.
  Lemma inter_sym : forall q a b, simple_lgr q -> Forall2 (interchangeable q) a b -> Forall2 (interchangeable q) b a.
  Proof. intros q a b Sq F. induction F; constructor; auto. apply interchangeable_sym; assumption. Qed.
  Lemma inter_trans : forall q a b c, simple_lgr q -> Forall2 (interchangeable q) a b -> Forall2 (interchangeable q) b c -> Forall2 (interchangeable q) a c.
  Proof.
    intros q a b c Sq F. revert c. induction F as [|x y a b H F IH]; intros c G; inversion G; subst; constructor; auto. eapply interchangeable_trans; eauto.
  Qed.
  Lemma carry_over : forall a b, in_lgr r a -> in_lgr s a -> Forall2 (interchangeable s) a b -> Forall2 (interchangeable r) a b.
  Proof.
    intros a b Ha Hb F. induction F as [|x y a b H F IH]; constructor.
    - apply agree_inter; [apply Ha; left; reflexivity|apply Hb; left; reflexivity|exact H].
    - apply IH; intros z Hz; [apply Ha|apply Hb]; right; exact Hz.
  Qed.
  Lemma across : forall a b, in_lgr r a -> in_lgr s b -> exists ia ib, has_index rm r a ia /\ has_index rm' s b ib /\ (ia = ib <-> in_lgr r b /\ variant_labels r a b).
  Proof.
    intros a b Ha Hb. destruct (index_has rm r a Rr Sr Ha) as [ia [I1 [I2 [I3 I4]]]]. destruct (index_has rm' s b Rs Ss Hb) as [ib [J1 [J2 [J3 J4]]]].
    exists ia, ib. split; [exact I1|]. split; [exact J1|]. rewrite variant_labels_iff. split.
    - intros <-. assert (K : Forall2 (interchangeable r) ia b) by (apply carry_over; [exact I3|exact J3|apply inter_sym; assumption]).
      split; [apply (inter_in r ia b); assumption|]. apply (inter_trans r a ia b); assumption.
    - intros [Hr F]. destruct (same_index b Hr Hb) as [i [K1 K2]]. destruct (simple_index_collision rm r Rr Sr a b Ha Hr) as [i1 [i2 [C1 [C2 C3]]]].
      apply C3 in F. destruct I1 as [I1 _]. destruct J1 as [J1 _]. destruct K1 as [K1 _]. destruct K2 as [K2 _]. congruence.
  Qed.
End Two.
