(** When members agree on what they share, the merge succeeds. *)
From Coq Require Import Permutation.
From Verif Require Import Base BaseFacts CharModel RepSpec RepProofs VariantProofs IterProofs VarSetSpec VarSetProofs.
From Verif Require Import RefModel RefSpec RefProofs ActionModel LgrModel LgrSpec LgrProofs LgrReach LgrInv LgrRefs LgrTags LgrFinal.
From Verif Require Import ValidateModel ValidateSpec ValidateProofs PopulateModel PopulateSpec PopulateProofs.
From Verif Require Import CompareModel CompareSpec CompareProofs HarmonizeModel HarmonizeSpec HarmonizeProofs HarmonizeFinal.
From Verif Require Import SerialSpec SerialFinal MergeModel MergeProofs MergeSteps MergeLoop MergeSpec MergeRefs MergeFold MergeFinal MergeContext MergeSucceedSpec MergeSucceed.
Open Scope string_scope.
Open Scope list_scope.

Lemma picked : forall (D : list member) m1 m rest, In m1 D -> exists r, Permutation (D ++ m :: rest) (m1 :: m :: r).
Proof.
  intros D m1 m rest H. apply in_split in H. destruct H as [d1 [d2 ->]]. exists (d1 ++ d2 ++ rest).
  rewrite <- app_assoc. cbn [app]. apply Permutation_sym. apply Permutation_cons_app. rewrite !app_assoc. apply Permutation_middle.
Qed.

Section Ord.
  Variable ord_names : list string -> list string.
  Variable ord_variants : list variant -> list variant.
  Hypothesis Pn : any_order ord_names.
  Hypothesis Pv : any_order ord_variants.

  Record agreed (D : list member) (st : merged) : Prop := mkAgreed {
    ag_sound : sound st;
    ag_maps : forall s, ~ In s (map get_script D) -> mapping_of (mg_map st) s = [];
    ag_when : Q_ctx ch_when D st;
    ag_not_when : Q_ctx ch_not_when D st;
    ag_from : forall a b u, mapping (lg_rep (mg_lgr st)) a b u ->
      exists m v, In m D /\ mapping (lg_rep (mb_lgr m)) a b v /\ v_when u = prefixed (get_script m) (v_when v) /\ v_not_when u = prefixed (get_script m) (v_not_when v);
    ag_kept : forall m a b, In m D -> plainly_given m a -> gives m a b -> exists u, mapping (lg_rep (mg_lgr st)) a b u /\ v_when u = None /\ v_not_when u = None
  }.
  Lemma has_of : forall m a b, gives m a b -> has_cp m a.
  Proof. intros m a b [v M]. unfold has_cp. destruct M as [ch [M _]]. congruence. Qed.
  Lemma agreed_nested : forall D st m rest a x ch, agreed D st -> variants_agree (D ++ m :: rest) ->
    lk (lg_rep (mg_lgr st)) a = Some x -> lk (lg_rep (mb_lgr m)) a = Some ch -> nested (get_variants ch) (get_variants x).
  Proof.
    intros D st m rest a x ch A V Hx Hc.
    destruct (get_variants ch) as [|v0 l0] eqn:Ec; [left; reflexivity|]. destruct (get_variants x) as [|u0 k0] eqn:Ex; [right; left; reflexivity|].
    right. right. rewrite <- Ec, <- Ex.
    assert (Mx : forall u, In u (get_variants x) -> mapping (lg_rep (mg_lgr st)) a (v_cp u) u) by (intros u Hu; apply mapping_lk; exists x; auto).
    assert (Mc : forall v, In v (get_variants ch) -> mapping (lg_rep (mb_lgr m)) a (v_cp v) v) by (intros v Hv; apply mapping_lk; exists ch; auto).
    assert (G0 : gives m a (v_cp v0)) by (exists v0; apply Mc; rewrite Ec; left; reflexivity).
    assert (W : forall u, In u (get_variants x) -> exists m1, In m1 D /\ gives m1 a (v_cp u) /\ plainly_given m a /\ (all_given m1 m a \/ all_given m m1 a) /\ v_when u = None /\ v_not_when u = None).
    { intros u Hu. destruct (ag_from _ _ A _ _ _ (Mx u Hu)) as [m1 [v [H1 [H2 [H3 H4]]]]]. assert (G1 : gives m1 a (v_cp u)) by (exists v; exact H2).
      destruct (picked D m1 m rest H1) as [r P]. destruct (V a m1 m r P (has_of _ _ _ G1) (has_of _ _ _ G0)) as [X|[X|[X1 [X2 X3]]]]; [destruct (X _ G1)|destruct (X _ G0)|].
      exists m1. destruct (X1 _ _ H2) as [Y1 Y2]. rewrite Y1 in H3. rewrite Y2 in H4. auto 10. }
    assert (Pl : forall v, In v (get_variants ch) -> v_when v = None /\ v_not_when v = None).
    { destruct (W u0) as [m1 [_ [_ [X _]]]]; [rewrite Ex; left; reflexivity|]. intros v Hv. apply (X (v_cp v)). apply Mc. exact Hv. }
    split; [exact Pl|].
    destruct (forallb (fun u => existsb (fun v => cps_eqb (v_cp v) (v_cp u)) (get_variants ch)) (get_variants x)) eqn:F.
    - right. intros k Hk. apply in_map_iff in Hk. destruct Hk as [u [<- Hu]]. rewrite forallb_forall in F. specialize (F u Hu). apply existsb_exists in F. destruct F as [v [V1 V2]]. apply cps_eqb_eq in V2.
      destruct (W u Hu) as [m1 [_ [_ [_ [_ [W1 W2]]]]]]. destruct (Pl v V1) as [P1 P2]. replace (vkey u) with (vkey v) by (unfold vkey; congruence). apply in_map. exact V1.
    - left. assert (N : exists u, In u (get_variants x) /\ forall v, In v (get_variants ch) -> v_cp v <> v_cp u).
      { clear - F. induction (get_variants x) as [|u l IH]; [discriminate|]. cbn [forallb] in F. destruct (existsb _ _) eqn:E.
        - destruct (IH F) as [w [W1 W2]]. exists w. split; [right; exact W1|exact W2].
        - exists u. split; [left; reflexivity|]. intros v Hv K. assert (X : existsb (fun v => cps_eqb (v_cp v) (v_cp u)) (get_variants ch) = true); [|congruence].
          apply existsb_exists. exists v. split; [exact Hv|apply cps_eqb_eq; exact K]. }
      destruct N as [u [Hu N]]. destruct (W u Hu) as [m1 [D1 [G1 [X1 [X2 _]]]]].
      assert (X3 : all_given m m1 a).
      { destruct X2 as [X2|X2]; [|exact X2]. exfalso. destruct (X2 _ G1) as [v Mv]. apply mapping_lk in Mv. destruct Mv as [y [Y1 [Y2 Y3]]]. assert (y = ch) by congruence. subst y. exact (N v Y2 Y3). }
      destruct (picked D m1 m rest D1) as [r P]. destruct (V a m1 m r P (has_of _ _ _ G1) (has_of _ _ _ G0)) as [Y|[Y|[Y1 [_ _]]]]; [destruct (Y _ G1)|destruct (Y _ G0)|].
      intros k Hk. apply in_map_iff in Hk. destruct Hk as [v [<- Hv]]. destruct (ag_kept _ _ A m1 a (v_cp v) D1 Y1) as [w [W1 [W2 W3]]]; [apply X3; exists v; apply Mc; exact Hv|].
      apply mapping_lk in W1. destruct W1 as [y [Z1 [Z2 Z3]]]. assert (y = x) by congruence. subst y. destruct (Pl v Hv) as [P1 P2]. replace (vkey v) with (vkey w) by (unfold vkey; congruence). apply in_map. exact Z2.
  Qed.

  (** ** Context rules *)
  Lemma agreed_join : forall fld D m c ex ch st, Q_ctx fld D st -> unambiguous (fof fld) (D ++ [m]) -> same_rules (fof fld) (D ++ [m]) ->
    lk (lg_rep (mg_lgr st)) c = Some ex -> lk (lg_rep (mb_lgr m)) c = Some ch -> exists j, join_context (get_script m) (map get_script D) (fld ex) (fld ch) (ch_cp ch) = Ok j.
  Proof.
    intros fld D m c ex ch st [_ HF] [U1 U2] Sr Hx Hc. specialize (HF c ex Hx). pose proof (lk_cp _ _ _ Hc) as Ecp. rewrite Ecp.
    assert (Ef : fof fld m c = fld ch) by (unfold fof; rewrite lookup_lk, Hc; reflexivity).
    destruct HF as [[_ F2]|[n [F1 [F2 F3]]]]; [apply join_silent; auto|].
    destruct (fld ch) as [mine|] eqn:Em; [|eexists; reflexivity]. destruct (truthy (Some mine)) eqn:T; [|unfold join_context; rewrite T; eexists; reflexivity].
    assert (Mn : mine <> "") by (intros ->; discriminate).
    assert (Hn : n <> "" /\ exists x, In x D /\ fof fld x c = Some n).
    { destruct (asking (fof fld) D c) as [|x r] eqn:Ea; [congruence|]. assert (Hi : In x (asking (fof fld) D c)) by (rewrite Ea; left; reflexivity).
      specialize (F2 x (or_introl eq_refl)). apply asking_In in Hi. destruct Hi as [I1 I2]. rewrite F2 in I2. destruct (truthy_some _ I2) as [k [K1 K2]]. split; [congruence|]. exists x. auto. }
    destruct Hn as [Hn [x0 [X1 X2]]].
    assert (Ad : apart D) by (intros a b rest R; apply (U2 a b (rest ++ [m])); apply (Permutation_app_tail [m]) in R; exact R).
    assert (Sd : forall x, In x D -> ~ starts (get_script x) n) by (intros x Hi; apply (U1 x x0 c); [apply in_app_iff; auto|apply in_app_iff; auto|exact X2]).
    rewrite <- Em. rewrite (join_spec fld D m c ex n _ Ad Sd F1 F2 F3 eq_refl Hn ch Ecp mine Em Mn).
    rewrite (Sr c x0 m n mine); [rewrite String.eqb_refl; eexists; reflexivity|apply in_app_iff; auto|apply in_app_iff; right; left; reflexivity|exact X2|congruence|exact Hn|exact Mn].
  Qed.

  Lemma agreed_step : forall D st m st' P, agreed D st -> (forall a x ch, lk (lg_rep (mg_lgr st)) a = Some x -> lk (lg_rep (mb_lgr m)) a = Some ch -> nested (get_variants ch) (get_variants x)) ->
    unambiguous when_of (D ++ [m]) -> unambiguous not_when_of (D ++ [m]) -> took ord_names (map get_script D) st st' m P -> agreed (D ++ [m]) st'.
  Proof.
    intros D st m st' P A N U1 U2 T. constructor.
    - apply (tk_sound _ _ _ _ _ _ T).
    - intros s Hs. rewrite map_app, in_app_iff in Hs. cbn in Hs. rewrite (tk_maps _ _ _ _ _ _ T) by (intro; subst; tauto). apply (ag_maps _ _ A). tauto.
    - apply (ctx_step ord_names ch_when same_when (fun _ _ _ _ => eq_refl) (old_when ord_names) D st m st' P (ag_when _ _ A) T U1).
    - apply (ctx_step ord_names ch_not_when same_not_when (fun _ _ _ _ => eq_refl) (old_not_when ord_names) D st m st' P (ag_not_when _ _ A) T U2).
    - intros a b u M. apply (tk_map _ _ _ _ _ _ T) in M. destruct M as [M|[[v [M1 [M2 ->]]]|[_ J]]].
      + destruct (ag_from _ _ A _ _ _ M) as [x [v [H1 H2]]]. exists x, v. rewrite in_app_iff. auto.
      + exists m, v. rewrite in_app_iff. cbn [In carried v_when v_not_when]. auto 10.
      + exfalso. destruct J as [l1 [l2 [v1 [v2 [J1 [J2 [J3 _]]]]]]]. destruct (tk_pairs _ _ _ _ _ _ T _ J1) as [c [_ [_ [B1 [B2 B3]]]]]. cbn [fst snd] in *.
        destruct (B1 v1 J2) as [M1 F1]. pose proof (B2 v2 J3) as M2. pose proof (B3 v2 J3) as F2.
        pose proof M1 as M1'. apply mapping_lk in M1'. destruct M1' as [ch [C1 [C2 _]]]. pose proof M2 as M2'. apply mapping_lk in M2'. destruct M2' as [x [X1 [X2 _]]].
        destruct (N c x ch X1 C1) as [K|[K|[_ [K|K]]]]; [rewrite K in C2; destruct C2|rewrite K in X2; destruct X2| |].
        * specialize (K (vkey v1) (in_map vkey _ _ C2)). apply in_map_iff in K. destruct K as [u' [K1 K2]]. apply (F1 u'); [|exact K1]. apply mapping_lk. exists x. split; [exact X1|]. split; [exact K2|]. unfold vkey in K1. congruence.
        * specialize (K (vkey v2) (in_map vkey _ _ X2)). apply in_map_iff in K. destruct K as [u' [K1 K2]]. apply (F2 u'); [|exact K1]. apply mapping_lk. exists ch. split; [exact C1|]. split; [exact K2|]. unfold vkey in K1. congruence.
    - intros x a b Hx Pl G. apply in_app_iff in Hx. destruct Hx as [Hx|[<-|[]]].
      + destruct (ag_kept _ _ A x a b Hx Pl G) as [u [K1 K2]]. exists u. split; [|exact K2]. apply (tk_map _ _ _ _ _ _ T). auto.
      + destruct G as [v M]. destruct (Pl b v M) as [P1 P2]. destruct (took_new ord_names _ _ _ _ _ _ _ _ T M) as [w [W1 W2]]. exists w. split; [exact W1|].
        destruct W2 as [W2|W2].
        * unfold copied in W2. destruct W2 as [_ W2]. rewrite P1, P2 in W2. cbn in W2. tauto.
        * unfold vkey in W2. split; congruence.
  Qed.

  Lemma agreed_members : forall l D st, agreed D st -> variants_agree (D ++ l) -> unambiguous when_of (D ++ l) -> unambiguous not_when_of (D ++ l) ->
    same_rules when_of (D ++ l) -> same_rules not_when_of (D ++ l) -> NoDup (map get_script (D ++ l)) ->
    (forall m, In m l -> proper (mb_lgr m) /\ texts_once m /\ contexts_named m) ->
    exists st', merge_members ord_names ord_variants (map get_script D) st l = Ok st' /\ agreed (D ++ l) st'.
  Proof.
    induction l as [|m l IH]; intros D st A V U1 U2 R1 R2 Hn Hl; [exists st; rewrite app_nil_r; auto|]. cbn [merge_members].
    destruct (Hl m (or_introl eq_refl)) as [H1 [H2 H3]].
    pose proof (fun a x ch => agreed_nested D st m l a x ch A V) as N.
    assert (Fr : forall f, unambiguous f (D ++ m :: l) -> unambiguous f (D ++ [m])).
    { intros f [F1 F2]. split.
      - intros a x c n Ha Hx. apply (F1 a x c n); rewrite in_app_iff in *; cbn [In] in *; tauto.
      - intros a x rest R. apply (F2 a x (rest ++ l)). replace (D ++ m :: l) with ((D ++ [m]) ++ l) by (rewrite <- app_assoc; reflexivity). apply (Permutation_app_tail l) in R. exact R. }
    assert (Sr : forall f, same_rules f (D ++ m :: l) -> same_rules f (D ++ [m])).
    { intros f F c x y n1 n2 Hx Hy. apply (F c x y n1 n2); rewrite in_app_iff in *; cbn [In] in *; tauto. }
    destruct (merge_member_ok ord_names ord_variants Pn Pv (map get_script D) st m (ag_sound _ _ A) H1 H2 H3) as [st1 E].
    { apply (ag_maps _ _ A). intro Hi. rewrite map_app in Hn. cbn in Hn. apply NoDup_remove_2 in Hn. apply Hn. apply in_app_iff. auto. }
    { intros a x ch Hx Hc. split; [|split].
      - exact (agreed_join ch_when D m a x ch st (ag_when _ _ A) (Fr _ U1) (Sr _ R1) Hx Hc).
      - exact (agreed_join ch_not_when D m a x ch st (ag_not_when _ _ A) (Fr _ U2) (Sr _ R2) Hx Hc).
      - exact (N a x ch Hx Hc). }
    rewrite E. cbn [bind]. destruct (member_took ord_names ord_variants Pv _ _ _ _ (ag_sound _ _ A) (proper_tidy _ H1) E) as [P T].
    replace (map get_script D ++ [get_script m]) with (map get_script (D ++ [m])) by (rewrite map_app; reflexivity).
    replace (D ++ m :: l) with ((D ++ [m]) ++ l) by (rewrite <- app_assoc; reflexivity).
    apply IH; try (rewrite <- app_assoc; assumption).
    - exact (agreed_step D st m st1 P A N (Fr _ U1) (Fr _ U2) T).
    - intros x Hx. apply Hl. right. exact Hx.
  Qed.
  Lemma agreeing_merged : forall l, (forall m, In m l -> proper (mb_lgr m) /\ texts_once m /\ contexts_named m) -> NoDup (map get_script l) ->
    unambiguous when_of l -> unambiguous not_when_of l -> variants_agree l -> same_rules when_of l -> same_rules not_when_of l ->
    exists st, merge_lgr_set ord_names ord_variants l = Ok st /\ agreed (isort script_leb l) st.
  Proof.
    intros l Hl Hn U1 U2 V R1 R2. unfold merge_lgr_set. pose proof (sorted_perm l) as Hp.
    apply (agreed_members (isort script_leb l) [] start).
    - constructor.
      + apply start_sound.
      + intros s _. reflexivity.
      + split; [apply entries_start|]. intros c x H. rewrite start_lk in H. discriminate.
      + split; [apply entries_start|]. intros c x H. rewrite start_lk in H. discriminate.
      + intros a b u M. apply mapping_lk in M. destruct M as [x [X _]]. rewrite start_lk in X. discriminate.
      + intros m a b [].
    - intros c m1 m2 rest H. apply (V c m1 m2 rest). eapply Permutation_trans; [exact Hp|exact H].
    - exact (unambiguous_perm ch_when _ _ Hp U1).
    - exact (unambiguous_perm ch_not_when _ _ Hp U2).
    - intros c m1 m2 n1 n2 A B. apply R1; apply (Permutation_in _ (Permutation_sym Hp)); assumption.
    - intros c m1 m2 n1 n2 A B. apply R2; apply (Permutation_in _ (Permutation_sym Hp)); assumption.
    - cbn [app]. eapply Permutation_NoDup; [apply Permutation_map; exact Hp|exact Hn].
    - intros m Hm. apply Hl. eapply Permutation_in; [apply Permutation_sym; exact Hp|exact Hm].
  Qed.
  Theorem agreeing_succeeds : forall l, (forall m, In m l -> proper (mb_lgr m) /\ texts_once m /\ contexts_named m) -> NoDup (map get_script l) ->
    unambiguous when_of l -> unambiguous not_when_of l -> variants_agree l -> same_rules when_of l -> same_rules not_when_of l ->
    exists st, merge_lgr_set ord_names ord_variants l = Ok st.
  Proof. intros l Hl Hn U1 U2 V R1 R2. destruct (agreeing_merged l Hl Hn U1 U2 V R1 R2) as [st [E _]]. eauto. Qed.
  (** Nothing less will do for the context rules. *)
  Theorem agreeing_exact : forall l, (forall m, In m l -> proper (mb_lgr m) /\ texts_once m /\ contexts_named m) -> NoDup (map get_script l) ->
    unambiguous when_of l -> unambiguous not_when_of l -> variants_agree l ->
    ((exists st, merge_lgr_set ord_names ord_variants l = Ok st) <-> same_rules when_of l /\ same_rules not_when_of l).
  Proof.
    intros l Hl Hn U1 U2 V. split.
    - intros [st E]. assert (K : forall f, f = when_of \/ f = not_when_of -> unambiguous f l -> same_rules f l).
      { intros f Hf U c m1 m2 n1 n2 A B F1 F2 N1 N2. destruct (String.string_dec n1 n2) as [|Hne]; [assumption|]. exfalso.
        exact (different_rules_stop ord_names ord_variants Pv l (fun m Hm => proper_tidy _ (proj1 (Hl m Hm))) f Hf U m1 m2 c n1 n2 A B F1 F2 N1 N2 Hne st E). }
      split; apply K; auto.
    - intros [R1 R2]. apply agreeing_succeeds; assumption.
  Qed.
  (** Nothing is related that no member relates. *)
  Theorem agreeing_targets : forall l st, (forall m, In m l -> proper (mb_lgr m) /\ texts_once m /\ contexts_named m) -> NoDup (map get_script l) ->
    unambiguous when_of l -> unambiguous not_when_of l -> variants_agree l -> merge_lgr_set ord_names ord_variants l = Ok st ->
    forall a b, has_target (lg_rep (mg_lgr st)) a b <-> exists m, In m l /\ gives m a b.
  Proof.
    intros l st Hl Hn U1 U2 V E a b. destruct (proj1 (agreeing_exact l Hl Hn U1 U2 V) (ex_intro _ st E)) as [R1 R2].
    destruct (agreeing_merged l Hl Hn U1 U2 V R1 R2) as [st' [E' A]]. assert (st' = st) by congruence. subst st'. split.
    - intros [u M]. destruct (ag_from _ _ A _ _ _ M) as [m [v [H1 [H2 _]]]]. exists m. split; [apply (Permutation_in _ (Permutation_sym (sorted_perm l))); exact H1|exists v; exact H2].
    - intros [m [Hm [v M]]]. destruct (variants_kept ord_names ord_variants Pv l st (fun x Hx => proper_tidy _ (proj1 (Hl x Hx))) E m a b v Hm M) as [w [W _]]. exists w. exact W.
  Qed.
End Ord.
