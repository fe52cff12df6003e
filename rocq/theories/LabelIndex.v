(** Index labels. *)
From Coq Require Import Sorting.Sorted Permutation.
From Verif Require Import Base BaseFacts CharModel RepSpec RepProofs VariantProofs ActionModel ActionSpec ActionProofs
  LabelModel LabelSpec LabelProofs LabelElig.
Open Scope list_scope.

Lemma min_cps_spec : forall l m, In (min_cps m l) (m :: l) /\ forall c, In c (m :: l) -> cps_leb (min_cps m l) c = true.
Proof.
  induction l as [|x l IH]; intro m; cbn [min_cps].
  - split; [left; reflexivity|]. intros c [<-|[]]. apply cps_leb_refl.
  - destruct (IH (if cps_leb m x then m else x)) as [H1 H2]. split.
    + destruct H1 as [H1|H1]; [|right; right; exact H1]. rewrite <- H1. destruct (cps_leb m x); [left|right; left]; reflexivity.
    + intros c Hc. destruct (cps_leb m x) eqn:E.
      * destruct Hc as [<-|[<-|Hc]]; [apply H2; left; reflexivity| |apply H2; right; exact Hc].
        eapply cps_leb_trans; [apply H2; left; reflexivity|exact E].
      * destruct Hc as [<-|[<-|Hc]]; [|apply H2; left; reflexivity|apply H2; right; exact Hc].
        eapply cps_leb_trans; [apply H2; left; reflexivity|]. destruct (cps_leb_total m x); congruence.
Qed.

Lemma smallest_unique : forall P a b, smallest P a -> smallest P b -> a = b.
Proof. intros P a b [H1 H2] [G1 G2]. apply cps_leb_antisym; auto. Qed.

Lemma index_on_minima : forall rm label chars prefix, label = prefix ++ spelled chars ->
  minima rm label (length prefix) chars (index_on rm prefix chars).
Proof.
  intros rm label. induction chars as [|ch chars IH]; intros prefix Hl; cbn [index_on]; [constructor|].
  cbn [spelled flat_map] in Hl. fold (spelled chars) in Hl. constructor.
  - destruct (min_cps_spec (index_choices rm prefix (flat_map ch_cp chars) ch) (ch_cp ch)) as [H1 H2].
    assert (Hrep : forall v, replaced label (length prefix) (ch_cp ch) (v_cp v) = prefix ++ v_cp v ++ spelled chars).
    { intro v. unfold replaced. subst label. rewrite firstn_app, firstn_all, Nat.sub_diag, firstn_O, app_nil_r.
      rewrite Nat.add_comm, <- skipn_skipn. rewrite skipn_app_len, skipn_app_len. reflexivity. }
    assert (Hc : forall c, choice rm label (length prefix) ch c <-> In c (ch_cp ch :: index_choices rm prefix (flat_map ch_cp chars) ch)).
    { intro c. unfold choice, index_choices. cbn [In]. rewrite in_map_iff. split.
      - intros [H|[v [Hv [Hcp Hx]]]]; [left; auto|right]. exists v. split; auto. apply filter_In. split; auto. apply ctx_var_iff. rewrite Hrep in Hx. exact Hx.
      - intros [H|[v [Hcp Hx]]]; [left; auto|right]. apply filter_In in Hx. destruct Hx as [Hv Hx]. exists v. split; auto. split; auto. rewrite Hrep. apply ctx_var_iff. exact Hx. }
    split; [apply Hc; exact H1|]. intros c Hcc. apply H2. apply Hc. exact Hcc.
  - rewrite <- app_length. apply IH. rewrite <- app_assoc. exact Hl.
Qed.
Lemma minima_unique : forall rm label i l a, minima rm label i l a -> forall b, minima rm label i l b -> a = b.
Proof.
  intros rm label i l a H. induction H as [|i ch l c cs Hs Hm IH]; intros b Hb; inversion Hb; subst; auto.
  f_equal; [eapply smallest_unique; eauto|auto].
Qed.

(** C19: the index of an eligible label, and the refusal of the others. *)
Theorem index_once_spec : forall rm r label, reachable r -> label <> [] ->
  forall chars inv, longest_match rm r label 0 chars inv ->
  match inv with
  | [] => exists m, index_once rm r label = Ok m /\ smallest (index_candidate rm r label) m
  | (x, _) :: _ => index_once rm r label = Raise (NotInLGR [x])
  end.
Proof.
  intros rm r label Hr Hne chars inv Hlm. unfold index_once. destruct (preliminary_spec rm r label Hr) as [p [H1 [H2 [H3 H4]]]].
  destruct label as [|x0 label0]; [contradiction|]. set (label := x0 :: label0) in *. rewrite H1.
  destruct (longest_match_deterministic _ _ _ _ _ _ Hlm _ _ H2) as [E1 E2]. subst chars.
  destruct (pr_ok p) eqn:Ep; cbn [negb].
  - assert (Hi : pr_invalid p = []) by (apply H4; reflexivity). rewrite Hi in E2, H2. destruct inv as [|[y w] inv]; [|discriminate].
    destruct (label_partitions_spec rm r label Hr Hne) as [ps [P1 [P2 P3]]]. rewrite P1.
    assert (Hcut : cut rm r label 0 (pr_chars p)) by (eapply longest_match_cut; eauto).
    apply P3 in Hcut.
    assert (Hcand : forall m, index_candidate rm r label m <-> In m (map (index_on rm []) ps)).
    { intro m. rewrite in_map_iff. assert (Hq : forall q, In q ps -> minima rm label 0 q (index_on rm [] q)).
      { intros q Hq. apply (index_on_minima rm label q []). apply P3 in Hq. apply cut_spelled in Hq; [exact Hq|lia]. }
      split.
      - intros [q [Hc Hm]]. apply P3 in Hc. exists q. split; auto. eapply minima_unique; eauto.
      - intros [q [<- Hq1]]. exists q. split; [apply P3; exact Hq1|auto]. }
    destruct (map (index_on rm []) ps) as [|i is] eqn:Em.
    { exfalso. apply in_map with (f := index_on rm []) in Hcut. rewrite Em in Hcut. contradiction. }
    exists (min_cps i is). split; auto. destruct (min_cps_spec is i) as [M1 M2]. split; [apply Hcand; exact M1|].
    intros c Hc. apply M2. apply Hcand. exact Hc.
  - destruct (pr_invalid p) as [|[y w] inv'] eqn:Ei; [exfalso; assert (false = true) by (apply H4; reflexivity); discriminate|].
    destruct inv as [|[y' w'] inv]; [discriminate|]. cbn in E2. injection E2 as E2 _. subst y'. reflexivity.
Qed.

Lemma Forall2_len : forall {A B} (R : A -> B -> Prop) a b, Forall2 R a b -> length a = length b.
Proof. intros A B R a b H. induction H; cbn; auto. Qed.

(** *** Simple LGRs *)
Section Simple.
  Variables (rm : rule_oracle) (r : repertoire).
  Hypotheses (Hr : reachable r) (Hs : simple_lgr r).

  Lemma lookup_entry : forall x, lookup r [x] <> None -> exists ch, entry r ch /\ ch_cp ch = [x].
  Proof.
    intros x H. destruct (lookup r [x]) as [ch|] eqn:E; [|contradiction]. exists ch. assert (Hc : ch_cp ch = [x]).
    { rewrite lookup_lk in E. apply lk_cp in E. exact E. }
    split; auto. unfold entry. rewrite Hc. exact E.
  Qed.
  Lemma simple_applies : forall label i ch, applies rm r label i ch <-> entry r ch /\ exists x, nth_error label i = Some x /\ ch_cp ch = [x].
  Proof.
    intros label i ch. unfold applies. split.
    - intros [He [Ho _]]. split; auto. destruct (sl_single r Hs ch He) as [x Hx]. exists x. split; auto. rewrite Hx in Ho.
      destruct Ho as [pre [post [-> <-]]]. rewrite nth_error_app2 by lia. rewrite Nat.sub_diag. reflexivity.
    - intros [He [x [Hx Hc]]]. split; auto. split.
      + rewrite Hc. apply nth_error_split in Hx. destruct Hx as [l1 [l2 [H1 H2]]]. exists l1, l2. auto.
      + destruct (sl_no_context r Hs ch He) as [-> ->]. exact I.
  Qed.
  Lemma simple_cut_exists : forall label, in_lgr r label -> forall n i, (n + i = length label)%nat -> exists l, cut rm r label i l.
  Proof.
    intros label Hl. induction n as [|n IH]; intros i Hi.
    - cbn in Hi. subst i. exists []. constructor.
    - destruct (nth_error label i) as [x|] eqn:Ex; [|apply nth_error_None in Ex; lia].
      destruct (lookup_entry x) as [ch [He Hc]]; [apply Hl; eapply nth_error_In; eauto|].
      destruct (IH (i + 1)%nat) as [l Hcl]; [lia|]. exists (ch :: l). apply cut_cons; [apply simple_applies; eauto|]. rewrite Hc. exact Hcl.
  Qed.
  Lemma simple_longest : forall label, in_lgr r label -> exists chars, longest_match rm r label 0 chars [].
  Proof.
    intros label Hl. destruct (preliminary_spec rm r label Hr) as [p [_ [H2 _]]]. exists (pr_chars p).
    rewrite (longest_match_no_skip _ _ _ _ _ _ H2) in H2; auto. intros j Hj. destruct (nth_error label j) as [x|] eqn:Ex; [|apply nth_error_None in Ex; lia].
    destruct (lookup_entry x) as [ch [He Hc]]; [apply Hl; eapply nth_error_In; eauto|]. exists ch. apply simple_applies. eauto.
  Qed.

  (** [least x m]: m is the least code point interchangeable with x. *)
  Definition least (x m : N) : Prop := interchangeable r x m /\ forall y, interchangeable r x y -> m <= y.
  Lemma least_unique : forall x a b, least x a -> least x b -> a = b.
  Proof. intros x a b [H1 H2] [G1 G2]. apply N.le_antisymm; auto. Qed.

  Lemma interchangeable_sym : forall x y, interchangeable r x y -> interchangeable r y x.
  Proof. intros x y [->|H]; [left; auto|right; apply (sl_symmetric r Hs); exact H]. Qed.
  Lemma interchangeable_trans : forall x y z, interchangeable r x y -> interchangeable r y z -> interchangeable r x z.
  Proof.
    intros x y z [->|H] [->|G]; unfold interchangeable; auto. destruct (sl_transitive r Hs x y z H G); auto.
  Qed.
  Lemma least_equal_iff : forall x y a b, least x a -> least y b -> (a = b <-> interchangeable r x y).
  Proof.
    intros x y a b [H1 H2] [G1 G2]. split.
    - intros ->. eapply interchangeable_trans; [exact H1|]. apply interchangeable_sym. exact G1.
    - intro H. apply N.le_antisymm; [apply H2; eapply interchangeable_trans; eauto|apply G2].
      eapply interchangeable_trans; [apply interchangeable_sym; exact H|exact H1].
  Qed.
  Lemma least_fix : forall x m, least x m -> least m m.
  Proof.
    intros x m [H1 H2]. split; [left; auto|]. intros y Hy. apply H2. eapply interchangeable_trans; eauto.
  Qed.

  Lemma simple_choice : forall label i ch x c, entry r ch -> ch_cp ch = [x] ->
    (choice rm label i ch c <-> exists y, c = [y] /\ interchangeable r x y).
  Proof.
    intros label i ch x c He Hc. unfold choice, interchangeable, maps_to. rewrite Hc. split.
    - intros [->|[v [Hv [Hcp _]]]]; [eauto|]. destruct (sl_variants r Hs ch v He Hv) as [_ [_ [y [Hy _]]]]. exists y. split; [congruence|].
      right. exists ch, v. split; [rewrite <- Hc; exact He|auto].
    - intros [y [-> [->|[ch' [v [H1 [H2 H3]]]]]]]; [auto|]. right. assert (ch' = ch) by (unfold entry in He; rewrite Hc in He; congruence). subst ch'.
      exists v. split; auto. split; auto. destruct (sl_variants r Hs ch v He H2) as [-> [-> _]]. exact I.
  Qed.
  Lemma simple_minima : forall label i l m, cut rm r label i l -> minima rm label i l m -> (i <= length label)%nat ->
    Forall2 least (skipn i label) m.
  Proof.
    intros label i l m Hcut. revert m. induction Hcut as [|i ch l Ha Hc IH]; intros m Hm Hi.
    - inversion Hm; subst. rewrite skipn_all. constructor.
    - inversion Hm as [|? ? ? c cs Hsm Hms]; subst. apply simple_applies in Ha. destruct Ha as [He [x [Hx Hcp]]].
      assert (Hlt : (i < length label)%nat) by (apply nth_error_Some; congruence). rewrite Hcp in *. cbn [length] in *.
      specialize (IH cs Hms). rewrite Nat.add_1_r in IH. specialize (IH Hlt).
      assert (Hsk : skipn i label = x :: skipn (S i) label).
      { apply nth_error_split in Hx. destruct Hx as [l1 [l2 [-> <-]]]. rewrite skipn_app_len.
        replace (S (length l1)) with (1 + length l1)%nat by lia. rewrite <- skipn_skipn, skipn_app_len. reflexivity. }
      rewrite Hsk. destruct Hsm as [S1 S2]. apply (simple_choice label i ch x c He Hcp) in S1. destruct S1 as [y [-> Hy]].
      cbn [app]. constructor; [|exact IH]. split; auto. intros z Hz. assert (Hle : cps_leb [y] [z] = true) by (apply S2; apply (simple_choice label i ch x [z] He Hcp); eauto).
      cbn in Hle. destruct (N.eqb_spec y z); [lia|]. apply N.ltb_lt in Hle. lia.
  Qed.
  Lemma Forall2_least_unique : forall l a b, Forall2 least l a -> Forall2 least l b -> a = b.
  Proof.
    induction l as [|x l IH]; intros a b Ha Hb; inversion Ha; inversion Hb; subst; auto. f_equal; [eapply least_unique; eauto|auto].
  Qed.

  Lemma simple_index : forall label, in_lgr r label -> exists m, index_once rm r label = Ok m /\ Forall2 least label m.
  Proof.
    intros label Hl. destruct label as [|x0 l0]; [exists []; split; [reflexivity|constructor]|]. set (label := x0 :: l0) in *.
    destruct (simple_longest label Hl) as [chars Hlm].
    pose proof (index_once_spec rm r label Hr ltac:(discriminate) chars [] Hlm) as H. cbn in H. destruct H as [m [H1 [[p [Hp1 Hp2]] _]]].
    exists m. split; auto. apply (simple_minima label 0 p m); auto. lia.
  Qed.
  Lemma least_in_lgr : forall label m, in_lgr r label -> Forall2 least label m -> in_lgr r m.
  Proof.
    intros label m Hl Hf. induction Hf as [|x y label m Hxy Hf IH]; [intros z []|]. intros z [<-|Hz].
    - destruct Hxy as [[->|Hm] _]; [apply Hl; left; reflexivity|]. apply (sl_symmetric r Hs) in Hm. destruct Hm as [ch [v [H _]]]. congruence.
    - apply IH; auto. intros w Hw. apply Hl. right. exact Hw.
  Qed.
  Lemma least_again : forall label m, Forall2 least label m -> Forall2 least m m.
  Proof. intros label m Hf. induction Hf; constructor; auto. eapply least_fix; eauto. Qed.
  Lemma least_le : forall label m, Forall2 least label m -> cps_leb m label = true.
  Proof.
    intros label m Hf. induction Hf as [|x y label m Hxy Hf IH]; [reflexivity|]. cbn. destruct (N.eqb_spec y x); [exact IH|].
    apply N.ltb_lt. assert (y <= x) by (apply Hxy; left; reflexivity). lia.
  Qed.
  Lemma least_Forall2_iff : forall a b ma mb, Forall2 least a ma -> Forall2 least b mb -> (ma = mb <-> Forall2 (interchangeable r) a b).
  Proof.
    induction a as [|x a IH]; intros b ma mb Ha Hb.
    - inversion Ha; subst. inversion Hb; subst; split; intro Hq; try constructor; try discriminate; inversion Hq.
    - inversion Ha as [|? m ? ma' Hm Hma]; subst. inversion Hb as [|y n b' mb' Hn Hmb]; subst.
      + split; intro H; [discriminate|inversion H].
      + split; intro H.
        * injection H as H1 H2. constructor; [eapply least_equal_iff; eauto|eapply IH; eauto].
        * inversion H; subst. f_equal; [apply (least_equal_iff x y); auto|eapply IH; eauto].
  Qed.

  Theorem simple_index_collision : forall a b, in_lgr r a -> in_lgr r b ->
    exists ia ib, index_once rm r a = Ok ia /\ index_once rm r b = Ok ib /\ (ia = ib <-> Forall2 (interchangeable r) a b).
  Proof.
    intros a b Ha Hb. destruct (simple_index a Ha) as [ia [A1 A2]]. destruct (simple_index b Hb) as [ib [B1 B2]].
    exists ia, ib. split; auto. split; auto. apply least_Forall2_iff; auto.
  Qed.
  Theorem simple_index_canonical : forall a, in_lgr r a -> exists m, index_once rm r a = Ok m /\ in_lgr r m /\
    length m = length a /\ Forall2 (interchangeable r) a m /\ cps_leb m a = true /\ index_once rm r m = Ok m /\
    forall n t, index_label rm r n t a = Ok m.
  Proof.
    intros a Ha. destruct (simple_index a Ha) as [m [A1 A2]]. pose proof (least_in_lgr a m Ha A2) as Hm. exists m.
    split; auto. split; auto. split; [symmetry; eapply Forall2_len; eauto|]. split.
    { clear - A2. induction A2; constructor; auto. apply H. }
    split; [eapply least_le; eauto|].
    assert (Hidem : index_once rm r m = Ok m).
    { destruct (simple_index m Hm) as [m' [M1 M2]]. rewrite M1. f_equal. eapply Forall2_least_unique; [exact M2|eapply least_again; eauto]. }
    split; auto.
    assert (Hgen : forall n t, index_label rm r n t m = Ok m).
    { induction n as [|n IH]; intro t; cbn [index_label]; rewrite Hidem; destruct m as [|y m']; auto.
      destruct (t && cps_eqb (y :: m') (y :: m')); auto. rewrite IH. reflexivity. }
    intros n t. destruct n as [|n]; cbn [index_label]; rewrite A1; destruct a as [|x a']; try reflexivity.
    - cbn in A1. congruence.
    - cbn in A1. congruence.
    - destruct (t && cps_eqb m (x :: a')); auto. rewrite Hgen. reflexivity.
  Qed.
End Simple.
