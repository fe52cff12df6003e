(** Exactly when two members whose variants have no context rules can be merged. *)
From Coq Require Import Permutation.
From Verif Require Import Base BaseFacts CharModel RepSpec RepProofs VariantProofs IterProofs VarSetSpec VarSetProofs.
From Verif Require Import RefModel RefSpec RefProofs ActionModel LgrModel LgrSpec LgrProofs LgrReach LgrInv LgrRefs LgrTags LgrFinal.
From Verif Require Import ValidateModel ValidateSpec ValidateProofs PopulateModel PopulateSpec PopulateProofs.
From Verif Require Import CompareModel CompareSpec CompareProofs HarmonizeModel HarmonizeSpec HarmonizeProofs HarmonizeFinal.
From Verif Require Import SerialSpec SerialFinal MergeModel MergeProofs MergeSteps MergeLoop MergeSpec MergeRefs MergeFold MergeFinal MergeContext MergeSucceedSpec MergeSucceed MergeAgree MergeCross.
Open Scope string_scope.
Open Scope list_scope.

Lemma NoDup_map_unique : forall A B (f : A -> B) l x y, NoDup (map f l) -> In x l -> In y l -> f x = f y -> x = y.
Proof.
  intros A B f. induction l as [|z l IH]; intros x y N Hx Hy E; [destruct Hx|]. cbn in N. apply NoDup_cons_iff in N. destruct N as [N1 N2].
  destruct Hx as [<-|Hx]; destruct Hy as [<-|Hy]; [reflexivity| | |apply IH; assumption]; exfalso; apply N1; [rewrite E|rewrite <- E]; apply in_map; assumption.
Qed.
Section Ord.
  Variable ord_names : list string -> list string.
  Variable ord_variants : list variant -> list variant.
  Hypothesis Pn : any_order ord_names.
  Hypothesis Pv : any_order ord_variants.

  (** ** One member *)
  Definition new_at (st : merged) (m : member) (c x : cps) : Prop := lk (lg_rep (mg_lgr st)) c <> None /\ gives m c x /\ ~ has_target (lg_rep (mg_lgr st)) c x /\ x <> c.
  Definition old_at (st : merged) (m : member) (c y : cps) : Prop := has_cp m c /\ has_target (lg_rep (mg_lgr st)) c y /\ ~ gives m c y /\ y <> c.
  Definition link_at (st : merged) (m : member) (c a b : cps) : Prop := new_at st m c a /\ old_at st m c b \/ new_at st m c b /\ old_at st m c a.
  Lemma member_exact : forall previous st m, sound st -> proper (mb_lgr m) -> texts_once m -> unconditional m ->
    mapping_of (mg_map st) (get_script m) = [] -> (forall a b u, mapping (lg_rep (mg_lgr st)) a b u -> v_when u = None /\ v_not_when u = None) ->
    (forall a x ch, lk (lg_rep (mg_lgr st)) a = Some x -> lk (lg_rep (mb_lgr m)) a = Some ch -> rules_join (get_script m) previous ch x) ->
    ((exists st', merge_member ord_names ord_variants previous st m = Ok st') <->
     forall c a b, link_at st m c a b -> (lk (lg_rep (mg_lgr st)) a <> None \/ has_cp m a) /\ b <> [] /\ ~ has_target (lg_rep (mg_lgr st)) a b /\ ~ gives m a b /\
       forall d, link_at st m d a b -> d = c) /\
    forall st', merge_member ord_names ord_variants previous st m = Ok st' ->
      (forall a b, has_target (lg_rep (mg_lgr st')) a b <-> has_target (lg_rep (mg_lgr st)) a b \/ gives m a b \/ exists c, link_at st m c a b) /\
      (forall a b u, mapping (lg_rep (mg_lgr st')) a b u -> v_when u = None /\ v_not_when u = None).
  Proof.
    intros previous st m [S Nd] Pm Ht Hun Hmap Hbare Hjoin. pose proof (proper_tidy _ Pm) as T. unfold merge_member. cbv zeta.
    destruct (expanded_ok _ T) as [e [Ee Sp]]. rewrite Ee. cbn [finished bind].
    pose proof (spelled_expanded _ _ Sp) as X. pose proof Sp as [Re [_ [Hl [_ [Hrf [_ [Hnd _]]]]]]]. rewrite Hrf.
    unfold merge_references. rewrite Hmap.
    assert (Nm : NoDup (map fst (rm_refs (lg_refs (mb_lgr m))))) by (apply reachable_refs_nodup, tidy_reachable; exact T).
    destruct (merge_refs_total (inserted (lg_refs (mg_lgr st))) (rm_refs (lg_refs (mb_lgr m))) (lg_refs (mg_lgr st)) []) as [[m2 mp] E1].
    { intros id r Hi. apply (ids_ok _ (proper_ref_tidy _ Pm)). unfold defined_ref. assert (Hg : dget String.eqb id (rm_refs (lg_refs (mb_lgr m))) = Some r) by (apply (In_dget _ string_eqb_iff); assumption). congruence. }
    rewrite E1. cbn [bind fst snd].
    destruct (merge_refs_ok _ _ _ _ _ _ Nd Nm (fun v k => inserted_sound _ v k Nd) E1) as [_ [_ [_ [A4 _]]]].
    assert (Hmp : mapping_of (dset String.eqb (get_script m) mp (mg_map st)) (get_script m) = mp).
    { unfold mapping_of. rewrite (dget_dset _ string_eqb_iff), String.eqb_refl. reflexivity. }
    rewrite Hmp. set (g1 := set_refs (mg_lgr st) m2).
    assert (S1 : shape g1) by exact S.
    assert (Hid : forall rf, okrefs (lg_refs (mb_lgr m)) rf -> NoDup (map (mapped mp) rf) /\ forall x, In x (map (mapped mp) rf) -> defined_ref g1 x).
    { intros rf [K1 K2].
      assert (Hone : forall id, In id rf -> exists r r', dget String.eqb id (rm_refs (lg_refs (mb_lgr m))) = Some r /\ dget String.eqb (mapped mp id) (rm_refs m2) = Some r' /\ ref_value r' = ref_value r).
      { intros id Hi. specialize (K2 id Hi). destruct (dget String.eqb id (rm_refs (lg_refs (mb_lgr m)))) as [r|] eqn:E; [|congruence].
        destruct (A4 id r (dget_In _ string_eqb_iff _ _ _ E) eq_refl) as [r' [B1 B2]]. exists r, r'. auto. }
      split.
      - apply NoDup_map_inj; [exact K1|]. intros x y Hx Hy E. destruct (Hone x Hx) as [r1 [q1 [X1 [X2 X3]]]]. destruct (Hone y Hy) as [r2 [q2 [Y1 [Y2 Y3]]]].
        apply (Ht x y (ref_value r1)); unfold text_in; [rewrite X1; reflexivity|]. rewrite Y1. cbn [option_map]. f_equal. rewrite E in X2. congruence.
      - intros x Hx. apply in_map_iff in Hx. destruct Hx as [id [<- Hi]]. destruct (Hone id Hi) as [r [r' [_ [B _]]]]. unfold defined_ref, g1. cbn. congruence. }
    pose proof (lgr_reachable_wf e Re) as Wfe. pose proof (lgr_reachable_wf _ (tidy_reachable _ T)) as Wfm.
    destruct (ref_tidy_inv _ (proper_ref_tidy _ Pm)) as [_ Hrp].
    assert (Hgood : forall ch, In ch (rep_iter (lg_rep e)) -> good mp g1 ch /\ bare_variants (get_variants ch) /\ forall ex, lk (lg_rep g1) (ch_cp ch) = Some ex -> rules_join (get_script m) previous ch ex).
    { intros ch Hi. destruct (iter_general _ Wfe) as [_ [_ [Hsub _]]]. apply Hsub in Hi. apply (in_all_chars_lk _ _ Wfe) in Hi. pose proof (lk_wf _ _ _ Wfe Hi) as We.
      assert (Hne : ch_cp ch <> []) by (apply (lk_nonempty (lg_rep e)); congruence).
      rewrite Hl in Hi. destruct (lk (lg_rep (mb_lgr m)) (ch_cp ch)) as [c0|] eqn:E0; [|discriminate]. injection Hi as Hi.
      destruct (Hrp _ _ E0) as [P1 P2]. pose proof (proper_orderly _ Pm _ _ E0) as Po.
      assert (G0 : good mp g1 ch).
      { rewrite <- Hi in *. constructor; auto; cbn [single ch_refs].
        - apply Hid. exact P1.
        - apply Hid. exact P1.
        - intros v Hv. change (In v (get_variants c0)) in Hv. destruct (Hun (ch_cp c0) (v_cp v) v) as [C1 C2].
          { apply mapping_lk. exists c0. split; [exact E0|auto]. }
          split; [|rewrite C1, C2; split; discriminate]. split; [eapply variant_cp_nonempty; [exact We|exact Hv]|]. split; [apply Po; exact Hv|]. apply Hid. apply P2. exact Hv. }
      split; [exact G0|]. split; [rewrite <- Hi; intros v Hv; apply (Hun (ch_cp ch) (v_cp v) v); apply mapping_lk; exists c0; split; [exact E0|auto]|]. intros ex Hex. pose proof (Hjoin _ ex c0 Hex E0) as H. rewrite <- Hi. exact H. }
    assert (Bg : forall a b u, mapping (lg_rep g1) a b u -> v_when u = None /\ v_not_when u = None) by exact Hbare.
    destruct (iter_general _ Wfe) as [_ [Hit [Hsub Hnr]]]. destruct X as [Xr [Xg Xn]].
    destruct (loop_plain ord_names ord_variants Pn Pv (get_script m) previous (mb_extensions m) mp (mb_rules m) g1 (mg_rules st) S1 Bg (rep_iter (lg_rep e)) [] (mkWork g1 (mg_rules st) [])) as [w' [E2 [Th Ar]]]; auto.
    { apply through_start. exact S1. }
    { exists []. split; [constructor|]. split; [intros z []|]. split; [constructor|]. intros ch x y []. }
    cbn [app] in Th, Ar. unfold merge_chars. rewrite E2. cbn [bind].
    assert (Hin : forall ch, In ch (rep_iter (lg_rep e)) -> exists c0, lk (lg_rep (mb_lgr m)) (ch_cp ch) = Some c0 /\ ch = single c0).
    { intros ch Hi. apply Hsub in Hi. apply (in_all_chars_lk _ _ Wfe) in Hi. rewrite Hl in Hi. destruct (lk (lg_rep (mb_lgr m)) (ch_cp ch)) as [c0|]; [|discriminate]. injection Hi as <-. eauto. }
    assert (Hre : forall c, has_cp m c -> exists ch, In ch (rep_iter (lg_rep e)) /\ ch_cp ch = c).
    { intros c H. unfold has_cp in H. rewrite lookup_lk in H. destruct (lk (lg_rep (mb_lgr m)) c) as [c0|] eqn:E0; [|congruence].
      assert (He : lk (lg_rep e) c = Some (single c0)) by (rewrite Hl, E0; reflexivity). exists (single c0). pose proof (lk_cp _ _ _ He) as Ec. split; [|exact Ec].
      apply Hnr; [apply (in_all_chars_lk _ _ Wfe); rewrite Ec; exact He|apply (Xn _ _ He)]. }
    assert (Hgv : forall ch x, In ch (rep_iter (lg_rep e)) -> (In x (map v_cp (get_variants ch)) <-> gives m (ch_cp ch) x)).
    { intros ch x Hi. destruct (Hin ch Hi) as [c0 [E0 Es]]. unfold gives, has_target. rewrite in_map_iff. rewrite Es. split.
      - intros [v [V1 V2]]. exists v. apply mapping_lk. exists c0. rewrite Es in E0. split; [exact E0|]. split; [exact V2|exact V1].
      - intros [v Mv]. apply mapping_lk in Mv. destruct Mv as [y [Y1 [Y2 Y3]]]. rewrite Es in E0. assert (y = c0) by congruence. subst y. exists v. auto. }
    assert (Hlk : forall ch a b, In ch (rep_iter (lg_rep e)) -> (linked g1 ch a b <-> link_at st m (ch_cp ch) a b)).
    { intros ch a b Hi. assert (Hh : has_cp m (ch_cp ch)) by (destruct (Hin ch Hi) as [c0 [E0 _]]; unfold has_cp; rewrite lookup_lk; congruence).
      unfold linked, link_at, only_new, only_old, new_at, old_at. rewrite !(Hgv ch _ Hi). change (lg_rep g1) with (lg_rep (mg_lgr st)). tauto. }
    assert (Hnd' : NoDup (map ch_cp (rep_iter (lg_rep e)))) by exact Hit.
    pose proof (arranged_exact ord_variants Pv g1 (wk_lgr w') (rep_iter (lg_rep e)) (wk_new w') (th_shape _ _ _ _ _ _ _ _ _ _ Th) Ar Hnd') as Ex.
    assert (Hme : forall a, lk (lg_rep (wk_lgr w')) a <> None <-> lk (lg_rep (mg_lgr st)) a <> None \/ has_cp m a).
    { intro a. split.
      - intro H. destruct (lk (lg_rep (mg_lgr st)) a) eqn:Ea; [left; congruence|]. right. destruct (in_dec cps_eq_dec a (map ch_cp (rep_iter (lg_rep e)))) as [Hi|Hi].
        + apply in_map_iff in Hi. destruct Hi as [ch [<- Hi]]. destruct (Hin ch Hi) as [c0 [E0 _]]. unfold has_cp. rewrite lookup_lk. congruence.
        + exfalso. apply H. apply (th_none _ _ _ _ _ _ _ _ _ _ Th a Hi). exact Ea.
      - intros H. destruct (in_dec cps_eq_dec a (map ch_cp (rep_iter (lg_rep e)))) as [Hi|Hi].
        + apply in_map_iff in Hi. destruct Hi as [ch [<- Hi]]. destruct (th_here _ _ _ _ _ _ _ _ _ _ Th ch Hi) as [y [Y1 _]]. congruence.
        + destruct H as [H|H]; [|destruct (Hre a H) as [ch [I1 I2]]; exfalso; apply Hi; rewrite <- I2; apply in_map; exact I1].
          destruct (lk (lg_rep (mg_lgr st)) a) as [z|] eqn:Ez; [|congruence]. destruct (th_old _ _ _ _ _ _ _ _ _ _ Th a z Hi Ez) as [y [Y1 _]]. congruence. }
    assert (Hfr : forall a b, freely (wk_lgr w') a b <-> has_target (lg_rep (mg_lgr st)) a b \/ gives m a b).
    { intros a b. split.
      - intros [u [U1 _]]. apply (th_map _ _ _ _ _ _ _ _ _ _ Th) in U1. destruct U1 as [U1|[U1 [ch [I1 [I2 [v [V1 [_ V3]]]]]]]]; [left; exists u; exact U1|]. right. subst a. apply (Hgv ch b I1).
        rewrite <- U1, V3. cbn. apply in_map. exact V1.
      - assert (HS : has_target (lg_rep (mg_lgr st)) a b -> freely (wk_lgr w') a b).
        { intros [u U]. exists u. split; [apply (th_map _ _ _ _ _ _ _ _ _ _ Th); left; exact U|apply (Hbare _ _ _ U)]. }
        intros [H|H]; [apply HS; exact H|]. destruct (has_target_dec (lg_rep (mg_lgr st)) a b) as [Y|Y]; [apply HS; exact Y|].
        destruct (Hre a) as [ch [I1 I2]]; [apply (has_of _ _ _ H)|]. rewrite <- I2 in H. apply (Hgv ch b I1) in H. apply in_map_iff in H. destruct H as [v [V1 V2]].
        assert (Bv : v_when v = None /\ v_not_when v = None) by (apply (Hgood ch I1); exact V2). destruct Bv as [B1 B2].
        exists (carried (get_script m) mp v). split; [|unfold carried; cbn; rewrite B1, B2; auto]. apply (th_map _ _ _ _ _ _ _ _ _ _ Th). right. split; [exact V1|]. exists ch. split; [exact I1|]. split; [symmetry; exact I2|].
        exists v. split; [exact V2|]. split; [|reflexivity]. intros u U1 _. apply Y. exists u. rewrite <- V1. exact U1. }
    assert (Hbw : forall a b u, mapping (lg_rep (wk_lgr w')) a b u -> v_when u = None /\ v_not_when u = None).
    { intros a b u U1. apply (th_map _ _ _ _ _ _ _ _ _ _ Th) in U1. destruct U1 as [U1|[_ [ch [I1 [_ [v [V1 [_ ->]]]]]]]]; [apply (Hbare _ _ _ U1)|].
      destruct (Hgood ch I1) as [_ [Bv _]]. destruct (Bv v V1) as [B1 B2]. unfold carried. cbn. rewrite B1, B2. auto. }
    split; cycle 1.
    { intros st' E. apply bind_ok in E. destruct E as [p [E F]]. apply bind_ok in E. destruct E as [h [E E']]. injection E' as <-. cbn [fst snd] in F. injection F as <-. cbn [mg_lgr].
      pose proof (arranged_map ord_variants Pv g1 (wk_lgr w') (rep_iter (lg_rep e)) (wk_new w') h (th_shape _ _ _ _ _ _ _ _ _ _ Th) Ar E) as Mp.
      assert (Hl2 : forall a b, (exists c, In c (rep_iter (lg_rep e)) /\ linked g1 c a b) <-> exists c, link_at st m c a b).
      { intros a b. split.
        - intros [ch [I1 L]]. exists (ch_cp ch). apply (Hlk ch a b I1). exact L.
        - intros [c L]. assert (Hc : has_cp m c) by (destruct L as [[_ [L _]]|[_ [L _]]]; exact L). destruct (Hre c Hc) as [ch [I1 I2]]. subst c. exists ch. split; [exact I1|]. apply (Hlk ch a b I1). exact L. }
      split.
      - intros a b. rewrite <- Hl2. split.
        + intros [u U]. apply Mp in U. destruct U as [U|[U _]]; [|auto]. assert (X : freely (wk_lgr w') a b) by (exists u; split; [exact U|apply (Hbw _ _ _ U)]). apply Hfr in X. tauto.
        + intros H. assert (X : freely (wk_lgr w') a b \/ exists c, In c (rep_iter (lg_rep e)) /\ linked g1 c a b) by (rewrite Hfr; tauto). destruct X as [[u [U _]]|X]; eexists; apply Mp; [left; exact U|right; split; [exact X|reflexivity]].
      - intros a b u U. apply Mp in U. destruct U as [U|[_ ->]]; [apply (Hbw _ _ _ U)|split; reflexivity]. }
    transitivity (exists h, cross_all ord_variants (wk_lgr w') (wk_new w') = Ok h).
    { split.
      - intros [st' E]. apply bind_ok in E. destruct E as [p [E _]]. apply bind_ok in E. destruct E as [h [E _]]. eauto.
      - intros [h E]. rewrite E. cbn [bind]. eexists. reflexivity. }
    rewrite Ex. split.
    - intros H c a b Lk. assert (Hc : has_cp m c) by (destruct Lk as [[_ [L _]]|[_ [L _]]]; exact L). destruct (Hre c Hc) as [ch [I1 I2]]. subst c.
      destruct (H ch a b I1 (proj2 (Hlk ch a b I1) Lk)) as [H1 [H2 [H3 H4]]]. split; [apply Hme; exact H1|]. split; [exact H2|]. rewrite Hfr in H3. split; [tauto|]. split; [tauto|].
      intros d Ld. assert (Hd : has_cp m d) by (destruct Ld as [[_ [L _]]|[_ [L _]]]; exact L). destruct (Hre d Hd) as [dh [J1 J2]]. subst d. f_equal. apply (H4 dh J1). apply (Hlk dh a b J1). exact Ld.
    - intros H ch a b I1 Lk. apply (Hlk ch a b I1) in Lk. destruct (H _ a b Lk) as [H1 [H2 [H3 [H4 H5]]]]. split; [apply Hme; exact H1|]. split; [exact H2|]. split; [rewrite Hfr; tauto|].
      intros dh J1 Ld. apply (Hlk dh a b J1) in Ld. pose proof (H5 _ Ld) as Ec. eapply (NoDup_map_unique _ _ ch_cp); eauto.
  Qed.

  (** ** Two members *)
  Lemma start_agreed : agreed [] start.
  Proof.
    constructor.
    - apply start_sound.
    - intros s _. reflexivity.
    - split; [apply entries_start|]. intros c x H. rewrite start_lk in H. discriminate.
    - split; [apply entries_start|]. intros c x H. rewrite start_lk in H. discriminate.
    - intros a b u M. apply mapping_lk in M. destruct M as [x [X _]]. rewrite start_lk in X. discriminate.
    - intros m a b [].
  Qed.
  Lemma unconditional_named : forall m, unconditional m -> contexts_named m.
  Proof. intros m U a b v M. destruct (U a b v M) as [U1 U2]. rewrite U1, U2. split; discriminate. Qed.
  Lemma unambiguous_one : forall f m1 m2, unambiguous f [m1; m2] -> unambiguous f [m1].
  Proof.
    intros f m1 m2 [F1 F2]. split.
    - intros a x c n Ha Hx. apply (F1 a x c n); cbn in *; tauto.
    - intros a x rest R. apply Permutation_length in R. cbn in R. discriminate.
  Qed.
  Lemma between_comm : forall m1 m2 c x y, between m1 m2 c x y -> between m1 m2 c y x.
  Proof. unfold between. tauto. Qed.
  Lemma between_swap : forall m1 m2 c x y, between m1 m2 c x y -> between m2 m1 c x y.
  Proof. unfold between. tauto. Qed.
  Lemma joinable_swap : forall m1 m2, joinable m1 m2 -> joinable m2 m1.
  Proof.
    intros m1 m2 J c x y B. destruct (J c x y (between_swap _ _ _ _ _ B)) as [J1 [J2 [J3 J4]]]. split; [tauto|]. split; [exact J3|]. split; [exact J2|].
    intros c' B'. apply J4. apply between_swap. exact B'.
  Qed.
  Lemma ordered_exact : forall m1 m2, proper (mb_lgr m1) -> proper (mb_lgr m2) -> texts_once m1 -> texts_once m2 -> unconditional m1 -> unconditional m2 -> get_script m1 <> get_script m2 ->
    unambiguous when_of [m1; m2] -> unambiguous not_when_of [m1; m2] -> same_rules when_of [m1; m2] -> same_rules not_when_of [m1; m2] ->
    ((exists st, merge_members ord_names ord_variants [] start [m1; m2] = Ok st) <-> joinable m1 m2).
  Proof.
    intros m1 m2 P1 P2 O1 O2 U1 U2 Hs A1 A2 R1 R2.
    destruct (agreed_members ord_names ord_variants Pn Pv [m1] [] start start_agreed) as [st1 [E1 A]].
    { intros c x y rest R. apply Permutation_length in R. cbn in R. discriminate. }
    { exact (unambiguous_one _ _ _ A1). }
    { exact (unambiguous_one _ _ _ A2). }
    { intros c x y n1 n2 Hx Hy. apply R1; cbn in *; tauto. }
    { intros c x y n1 n2 Hx Hy. apply R2; cbn in *; tauto. }
    { cbn. constructor; [intros []|constructor]. }
    { intros m [<-|[]]. split; [exact P1|]. split; [exact O1|apply unconditional_named; exact U1]. }
    cbn [merge_members map app] in E1. apply bind_ok in E1. destruct E1 as [s1 [E1 E]]. injection E as ->. cbn [app] in A.
    assert (Ent : forall a, lk (lg_rep (mg_lgr st1)) a <> None <-> has_cp m1 a).
    { intro a. rewrite (proj1 (ag_when _ _ A) a). split; [intros [m [[<-|[]] H]]; exact H|intro H; exists m1; split; [left; reflexivity|exact H]]. }
    assert (Bare : forall a b u, mapping (lg_rep (mg_lgr st1)) a b u -> v_when u = None /\ v_not_when u = None).
    { intros a b u M. destruct (ag_from _ _ A _ _ _ M) as [m [v [[<-|[]] [H2 [H3 H4]]]]]. destruct (U1 _ _ _ H2) as [V1 V2]. rewrite V1 in H3. rewrite V2 in H4. auto. }
    assert (Tg : forall a b, has_target (lg_rep (mg_lgr st1)) a b <-> gives m1 a b).
    { intros a b. split.
      - intros [u M]. destruct (ag_from _ _ A _ _ _ M) as [m [v [[<-|[]] [H2 _]]]]. exists v. exact H2.
      - intro G. destruct (ag_kept _ _ A m1 a b (or_introl eq_refl)) as [u [M _]]; [intros d v M; apply (U1 _ _ _ M)|exact G|]. exists u. exact M. }
    assert (Lk : forall c a b, link_at st1 m2 c a b <-> between m1 m2 c a b).
    { intros c a b.
      unfold link_at, between, new_at, old_at, alone. rewrite !Ent, !Tg. tauto. }
    cbn [merge_members map app]. rewrite E1. cbn [bind].
    transitivity (exists st', merge_member ord_names ord_variants [get_script m1] st1 m2 = Ok st').
    { split; [intros [st H]; apply bind_ok in H; destruct H as [s [H _]]; eauto|intros [st H]; rewrite H; cbn [bind]; eauto]. }
    rewrite (fun X Y Z => proj1 (member_exact [get_script m1] st1 m2 (ag_sound _ _ A) P2 O2 U2 X Y Z)).
    - assert (Hc : forall a b c, between m1 m2 c a b -> ((has_cp m1 b \/ has_cp m2 b) -> b <> [])).
      { intros a b c _ [H|H]; unfold has_cp in H; rewrite lookup_lk in H; eapply lk_nonempty; eauto. }
      split; intro H.
      + intros c x y B. destruct (H c x y (proj2 (Lk c x y) B)) as [H1 [_ [H3 [H4 H5]]]]. rewrite Ent in H1. rewrite Tg in H3. split; [exact H1|]. split; [exact H3|]. split; [exact H4|].
        intros c' B'. apply H5. apply Lk. exact B'.
      + intros c a b L. apply Lk in L. destruct (H c a b L) as [H1 [H2 [H3 H4]]]. destruct (H c b a (between_comm _ _ _ _ _ L)) as [H1' _]. rewrite Ent, Tg. split; [exact H1|].
        split; [apply (Hc a b c L H1')|]. split; [exact H2|]. split; [exact H3|]. intros d Ld. apply H4. apply Lk. exact Ld.
    - apply (ag_maps _ _ A). cbn. intros [H|[]]. exact (Hs H).
    - exact Bare.
    - intros a x ch Hx Hc. split.
      + exact (agreed_join ch_when [m1] m2 a x ch st1 (ag_when _ _ A) A1 R1 Hx Hc).
      + exact (agreed_join ch_not_when [m1] m2 a x ch st1 (ag_not_when _ _ A) A2 R2 Hx Hc).
  Qed.
  Theorem pair_exact : forall m1 m2, proper (mb_lgr m1) -> proper (mb_lgr m2) -> texts_once m1 -> texts_once m2 -> unconditional m1 -> unconditional m2 -> get_script m1 <> get_script m2 ->
    unambiguous when_of [m1; m2] -> unambiguous not_when_of [m1; m2] ->
    ((exists st, merge_lgr_set ord_names ord_variants [m1; m2] = Ok st) <-> same_rules when_of [m1; m2] /\ same_rules not_when_of [m1; m2] /\ joinable m1 m2).
  Proof.
    intros m1 m2 P1 P2 O1 O2 U1 U2 Hs A1 A2.
    assert (Hsw : forall f, unambiguous f [m1; m2] -> unambiguous f [m2; m1]).
    { intros f [F1 F2]. split; [intros a x c n Ha Hx; apply (F1 a x c n); cbn in *; tauto|]. intros a x rest R. apply (F2 a x rest). eapply perm_trans; [apply perm_swap|exact R]. }
    assert (Hsr : forall f, same_rules f [m1; m2] -> same_rules f [m2; m1]) by (intros f F c x y n1 n2 Hx Hy; apply F; cbn in *; tauto).
    assert (Srt : isort script_leb [m1; m2] = [m1; m2] \/ isort script_leb [m1; m2] = [m2; m1]) by (cbn; destruct (script_leb m1 m2); auto).
    assert (Main : same_rules when_of [m1; m2] -> same_rules not_when_of [m1; m2] -> ((exists st, merge_lgr_set ord_names ord_variants [m1; m2] = Ok st) <-> joinable m1 m2)).
    { intros R1 R2. unfold merge_lgr_set. destruct Srt as [-> | ->].
      - apply ordered_exact; auto.
      - transitivity (joinable m2 m1); [apply ordered_exact; auto|split; apply joinable_swap]. }
    split.
    - intros [st E]. assert (K : forall f, f = when_of \/ f = not_when_of -> unambiguous f [m1; m2] -> same_rules f [m1; m2]).
      { intros f Hf U c x y n1 n2 A B F1 F2 N1 N2. destruct (String.string_dec n1 n2) as [|Hne]; [assumption|]. exfalso.
        refine (different_rules_stop ord_names ord_variants Pv [m1; m2] _ f Hf U x y c n1 n2 A B F1 F2 N1 N2 Hne st E). intros m [<-|[<-|[]]]; apply proper_tidy; assumption. }
      pose proof (K _ (or_introl eq_refl) A1) as R1. pose proof (K _ (or_intror eq_refl) A2) as R2. split; [exact R1|]. split; [exact R2|]. apply (Main R1 R2). eauto.
    - intros [R1 [R2 J]]. apply (Main R1 R2). exact J.
  Qed.

  (** Complete members: the variants joined are never related before. *)
  Theorem complete_joinable : forall m1 m2, complete m1 -> complete m2 ->
    (joinable m1 m2 <-> forall c c' x y, between m1 m2 c x y -> between m1 m2 c' x y -> c' = c).
  Proof.
    intros m1 m2 [S1 T1] [S2 T2]. split; [intros J c c' x y B B'; destruct (J c x y B) as [_ [_ [_ H]]]; apply H; exact B'|].
    intros H c x y B. split; [|split; [|split; [|intros c' B'; apply (H c c' x y B B')]]].
    - destruct B as [[[_ [X _]] _]|[[_ [X _]] _]]; [left; apply (S1 _ _ X)|right; apply (S2 _ _ X)].
    - intro G. destruct B as [[[_ [X1 [X2 X3]]] [_ [Y1 [Y2 Y3]]]]|[[_ [X1 [X2 X3]]] [_ [Y1 [Y2 Y3]]]]].
      + apply Y2. apply (proj2 (T1 _ _ X1) y G Y3).
      + apply X2. apply (proj2 (T1 _ _ Y1) x); [apply (S1 _ _ G)|exact X3].
    - intro G. destruct B as [[[_ [X1 [X2 X3]]] [_ [Y1 [Y2 Y3]]]]|[[_ [X1 [X2 X3]]] [_ [Y1 [Y2 Y3]]]]].
      + apply X2. apply (proj2 (T2 _ _ Y1) x); [apply (S2 _ _ G)|exact X3].
      + apply Y2. apply (proj2 (T2 _ _ X1) y G Y3).
  Qed.
End Ord.
