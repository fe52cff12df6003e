(** Exactly when members whose variants have no context rules can be merged, and what is then related. *)
From Coq Require Import Permutation.
From Verif Require Import Base BaseFacts CharModel RepSpec RepProofs VariantProofs IterProofs VarSetSpec VarSetProofs.
From Verif Require Import RefModel RefSpec RefProofs ActionModel LgrModel LgrSpec LgrProofs LgrReach LgrInv LgrRefs LgrTags LgrFinal.
From Verif Require Import ValidateModel ValidateSpec ValidateProofs PopulateModel PopulateSpec PopulateProofs.
From Verif Require Import CompareModel CompareSpec CompareProofs HarmonizeModel HarmonizeSpec HarmonizeProofs HarmonizeFinal.
From Verif Require Import SerialSpec SerialFinal MergeModel MergeProofs MergeSteps MergeLoop MergeSpec MergeRefs MergeFold MergeFinal MergeContext MergeSucceedSpec MergeSucceed MergeAgree MergeCross MergePairExact.
Open Scope string_scope.
Open Scope list_scope.

Section Ord.
  Variable ord_names : list string -> list string.
  Variable ord_variants : list variant -> list variant.
  Hypothesis Pn : any_order ord_names.
  Hypothesis Pv : any_order ord_variants.

  Record turned (D : list member) (st : merged) (H : cps -> Prop) (R : cps -> cps -> Prop) : Prop := mkTurned {
    tu_sound : sound st;
    tu_maps : forall s, ~ In s (map get_script D) -> mapping_of (mg_map st) s = [];
    tu_when : Q_ctx ch_when D st;
    tu_not_when : Q_ctx ch_not_when D st;
    tu_bare : forall a b u, mapping (lg_rep (mg_lgr st)) a b u -> v_when u = None /\ v_not_when u = None;
    tu_has : forall a, lk (lg_rep (mg_lgr st)) a <> None <-> H a;
    tu_rel : forall a b, has_target (lg_rep (mg_lgr st)) a b <-> R a b
  }.
  Lemma link_meeting : forall D st H R m c a b, turned D st H R -> (link_at st m c a b <-> meeting H R m c a b).
  Proof.
    intros D st H R m c a b T. unfold link_at, meeting, new_at, old_at, coming, missing. rewrite (tu_has _ _ _ _ T c), !(tu_rel _ _ _ _ T). tauto.
  Qed.
  Lemma meeting_comm : forall H R m c a b, meeting H R m c a b -> meeting H R m c b a.
  Proof. unfold meeting. tauto. Qed.

  Lemma turned_members : forall l D st H R, turned D st H R -> unambiguous when_of (D ++ l) -> unambiguous not_when_of (D ++ l) ->
    same_rules when_of (D ++ l) -> same_rules not_when_of (D ++ l) -> NoDup (map get_script (D ++ l)) ->
    (forall m, In m l -> proper (mb_lgr m) /\ texts_once m /\ unconditional m) ->
    ((exists st', merge_members ord_names ord_variants (map get_script D) st l = Ok st') <-> all_taken H R l) /\
    forall st', merge_members ord_names ord_variants (map get_script D) st l = Ok st' -> forall a b, has_target (lg_rep (mg_lgr st')) a b <-> related_after H R l a b.
  Proof.
    induction l as [|m l IH]; intros D st H R A U1 U2 R1 R2 Hn Hl.
    { cbn. split; [split; [auto|intros _; eauto]|]. intros st' E. injection E as <-. apply (tu_rel _ _ _ _ A). }
    cbn [merge_members all_taken related_after]. destruct (Hl m (or_introl eq_refl)) as [H1 [H2 H3]].
    assert (Fr : forall f, unambiguous f (D ++ m :: l) -> unambiguous f (D ++ [m])).
    { intros f [F1 F2]. split.
      - intros a x c n Ha Hx. apply (F1 a x c n); rewrite in_app_iff in *; cbn [In] in *; tauto.
      - intros a x rest Q. apply (F2 a x (rest ++ l)). replace (D ++ m :: l) with ((D ++ [m]) ++ l) by (rewrite <- app_assoc; reflexivity). apply (Permutation_app_tail l) in Q. exact Q. }
    assert (Sr : forall f, same_rules f (D ++ m :: l) -> same_rules f (D ++ [m])).
    { intros f F c x y n1 n2 Hx Hy. apply (F c x y n1 n2); rewrite in_app_iff in *; cbn [In] in *; tauto. }
    destruct (member_exact ord_names ord_variants Pn Pv (map get_script D) st m (tu_sound _ _ _ _ A) H1 H2 H3) as [Ex Tg].
    { apply (tu_maps _ _ _ _ A). intro Hi. rewrite map_app in Hn. cbn in Hn. apply NoDup_remove_2 in Hn. apply Hn. apply in_app_iff. auto. }
    { exact (tu_bare _ _ _ _ A). }
    { intros a x ch Hx Hc. split.
      - exact (agreed_join ch_when D m a x ch st (tu_when _ _ _ _ A) (Fr _ U1) (Sr _ R1) Hx Hc).
      - exact (agreed_join ch_not_when D m a x ch st (tu_not_when _ _ _ _ A) (Fr _ U2) (Sr _ R2) Hx Hc). }
    assert (Ex' : (exists st', merge_member ord_names ord_variants (map get_script D) st m = Ok st') <-> takes H R m).
    { rewrite Ex. split; intros K c a b L.
      - destruct (K c a b (proj2 (link_meeting _ _ _ _ _ _ _ _ A) L)) as [K1 [_ [K3 [K4 K5]]]]. rewrite (tu_has _ _ _ _ A) in K1. rewrite (tu_rel _ _ _ _ A) in K3.
        split; [exact K1|]. split; [exact K3|]. split; [exact K4|]. intros d L'. apply K5. apply (link_meeting _ _ _ _ _ _ _ _ A). exact L'.
      - apply (link_meeting _ _ _ _ _ _ _ _ A) in L. destruct (K c a b L) as [K1 [K3 [K4 K5]]]. destruct (K c b a (meeting_comm _ _ _ _ _ _ L)) as [K2 _].
        rewrite (tu_has _ _ _ _ A), (tu_rel _ _ _ _ A). split; [exact K1|]. split.
        { destruct K2 as [K2|K2]; [apply (tu_has _ _ _ _ A) in K2|unfold has_cp in K2; rewrite lookup_lk in K2]; eapply lk_nonempty; eauto. }
        split; [exact K3|]. split; [exact K4|]. intros d L'. apply K5. apply (link_meeting _ _ _ _ _ _ _ _ A). exact L'. }
    assert (Next : forall st1, merge_member ord_names ord_variants (map get_script D) st m = Ok st1 -> turned (D ++ [m]) st1 (then_has H m) (then_related H R m)).
    { intros st1 E. destruct (member_took ord_names ord_variants Pv _ _ _ _ (tu_sound _ _ _ _ A) (proper_tidy _ H1) E) as [P T]. destruct (Tg st1 E) as [G1 G2]. constructor.
      - apply (tk_sound _ _ _ _ _ _ T).
      - intros s Hs. rewrite map_app, in_app_iff in Hs. cbn in Hs. rewrite (tk_maps _ _ _ _ _ _ T) by (intro; subst; tauto). apply (tu_maps _ _ _ _ A). tauto.
      - apply (ctx_step ord_names ch_when same_when (fun _ _ _ _ => eq_refl) (old_when ord_names) D st m st1 P (tu_when _ _ _ _ A) T (Fr _ U1)).
      - apply (ctx_step ord_names ch_not_when same_not_when (fun _ _ _ _ => eq_refl) (old_not_when ord_names) D st m st1 P (tu_not_when _ _ _ _ A) T (Fr _ U2)).
      - exact G2.
      - intro a. rewrite (tk_entries _ _ _ _ _ _ T), (tu_has _ _ _ _ A). unfold then_has, has_cp. rewrite lookup_lk. reflexivity.
      - intros a b. rewrite G1, (tu_rel _ _ _ _ A). unfold then_related. split; (intros [X|[X|[c X]]]; [auto|auto|right; right; exists c; apply (link_meeting _ _ _ _ _ _ _ _ A); exact X]). }
    assert (Step : forall st1, merge_member ord_names ord_variants (map get_script D) st m = Ok st1 ->
      ((exists st', merge_members ord_names ord_variants (map get_script D ++ [get_script m]) st1 l = Ok st') <-> all_taken (then_has H m) (then_related H R m) l) /\
      forall st', merge_members ord_names ord_variants (map get_script D ++ [get_script m]) st1 l = Ok st' -> forall a b, has_target (lg_rep (mg_lgr st')) a b <-> related_after (then_has H m) (then_related H R m) l a b).
    { intros st1 E. replace (map get_script D ++ [get_script m]) with (map get_script (D ++ [m])) by (rewrite map_app; reflexivity).
      apply IH; try (rewrite <- app_assoc; assumption); [exact (Next st1 E)|]. intros x Hx. apply Hl. right. exact Hx. }
    split; [split|].
    - intros [st' E]. apply bind_ok in E. destruct E as [st1 [E1 E2]]. split; [apply Ex'; eauto|]. apply (Step st1 E1). eauto.
    - intros [K1 K2]. apply Ex' in K1. destruct K1 as [st1 E1]. rewrite E1. cbn [bind]. apply (Step st1 E1). exact K2.
    - intros st' E. apply bind_ok in E. destruct E as [st1 [E1 E2]]. apply (proj2 (Step st1 E1) st' E2).
  Qed.
  Lemma start_turned : turned [] start no_one nothing.
  Proof.
    pose proof (start_agreed) as A. constructor; try apply A.
    - intros a b u M. apply mapping_lk in M. destruct M as [x [X _]]. rewrite start_lk in X. discriminate.
    - intro a. rewrite start_lk. unfold no_one. tauto.
    - intros a b. split; [|intros []]. intros [u M]. apply mapping_lk in M. destruct M as [x [X _]]. rewrite start_lk in X. discriminate.
  Qed.

  Theorem in_turn : forall l, (forall m, In m l -> proper (mb_lgr m) /\ texts_once m /\ unconditional m) -> NoDup (map get_script l) ->
    unambiguous when_of l -> unambiguous not_when_of l ->
    exists l', Permutation l l' /\ in_script_order l' /\
      ((exists st, merge_lgr_set ord_names ord_variants l = Ok st) <-> same_rules when_of l /\ same_rules not_when_of l /\ all_taken no_one nothing l') /\
      (forall st, merge_lgr_set ord_names ord_variants l = Ok st -> forall a b, has_target (lg_rep (mg_lgr st)) a b <-> related_after no_one nothing l' a b).
  Proof.
    intros l Hl Hn U1 U2. pose proof (sorted_perm l) as Hp. exists (isort script_leb l). split; [exact Hp|]. split; [apply sorted_order|].
    assert (Main : same_rules when_of l -> same_rules not_when_of l ->
      ((exists st, merge_lgr_set ord_names ord_variants l = Ok st) <-> all_taken no_one nothing (isort script_leb l)) /\
      (forall st, merge_lgr_set ord_names ord_variants l = Ok st -> forall a b, has_target (lg_rep (mg_lgr st)) a b <-> related_after no_one nothing (isort script_leb l) a b)).
    { intros R1 R2. apply (turned_members (isort script_leb l) [] start no_one nothing start_turned).
      - exact (unambiguous_perm ch_when _ _ Hp U1).
      - exact (unambiguous_perm ch_not_when _ _ Hp U2).
      - intros c m1 m2 n1 n2 A B. apply R1; apply (Permutation_in _ (Permutation_sym Hp)); assumption.
      - intros c m1 m2 n1 n2 A B. apply R2; apply (Permutation_in _ (Permutation_sym Hp)); assumption.
      - cbn [app]. eapply Permutation_NoDup; [apply Permutation_map; exact Hp|exact Hn].
      - intros m Hm. apply Hl. eapply Permutation_in; [apply Permutation_sym; exact Hp|exact Hm]. }
    assert (Need : forall st, merge_lgr_set ord_names ord_variants l = Ok st -> same_rules when_of l /\ same_rules not_when_of l).
    { intros st E. assert (K : forall f, f = when_of \/ f = not_when_of -> unambiguous f l -> same_rules f l).
      { intros f Hf U c m1 m2 n1 n2 A B F1 F2 N1 N2. destruct (String.string_dec n1 n2) as [|Hne]; [assumption|]. exfalso.
        exact (different_rules_stop ord_names ord_variants Pv l (fun m Hm => proper_tidy _ (proj1 (Hl m Hm))) f Hf U m1 m2 c n1 n2 A B F1 F2 N1 N2 Hne st E). }
      split; apply K; auto. }
    split.
    - split.
      + intros [st E]. destruct (Need st E) as [R1 R2]. split; [exact R1|]. split; [exact R2|]. apply (Main R1 R2). eauto.
      + intros [R1 [R2 J]]. apply (Main R1 R2). exact J.
    - intros st E. destruct (Need st E) as [R1 R2]. apply (Main R1 R2). exact E.
  Qed.

  Theorem crossing_targets : forall m1 m2 st, proper (mb_lgr m1) -> proper (mb_lgr m2) -> texts_once m1 -> texts_once m2 -> unconditional m1 -> unconditional m2 -> get_script m1 <> get_script m2 ->
    unambiguous when_of [m1; m2] -> unambiguous not_when_of [m1; m2] -> merge_lgr_set ord_names ord_variants [m1; m2] = Ok st ->
    forall a b, has_target (lg_rep (mg_lgr st)) a b <-> gives m1 a b \/ gives m2 a b \/ exists c, between m1 m2 c a b.
  Proof.
    intros m1 m2 st P1 P2 O1 O2 C1 C2 Hs U1 U2 E a b.
    destruct (in_turn [m1; m2]) as [l' [Hp [_ [_ Tg]]]]; auto.
    { intros m [<-|[<-|[]]]; auto. }
    { cbn. constructor; [intros [H|[]]; congruence|constructor; [intros []|constructor]]. }
    rewrite (Tg st E).
    assert (Two : forall x y, related_after no_one nothing [x; y] a b <-> gives x a b \/ gives y a b \/ exists c, between x y c a b).
    { intros x y. cbn [related_after].
      assert (R1 : forall p q, then_related no_one nothing x p q <-> gives x p q).
      { intros p q. unfold then_related, meeting, coming, nothing, no_one. split; [intros [[]|[X|[c [[[[] _] _]|[[[] _] _]]]]]; exact X|auto]. }
      assert (Mt : forall c, meeting (then_has no_one x) (then_related no_one nothing x) y c a b <-> between x y c a b).
      { intro c. unfold meeting, coming, missing, between, alone. rewrite !R1. unfold then_has, no_one. tauto. }
      unfold then_related at 1. rewrite R1. split; (intros [X|[X|[c X]]]; [auto|auto|right; right; exists c; apply Mt; exact X]). }
    apply Permutation_length_2_inv in Hp. destruct Hp as [-> | ->]; [apply Two|]. rewrite Two.
    assert (B : (exists c, between m2 m1 c a b) <-> exists c, between m1 m2 c a b) by (split; intros [c X]; exists c; apply between_swap; exact X). rewrite B. tauto.
  Qed.
End Ord.
