From Coq Require Import Permutation.
From Verif Require Import Base BaseFacts CharModel RepSpec RepProofs VariantProofs IterProofs VarSetSpec VarSetProofs.
From Verif Require Import RefModel ActionModel LgrModel LgrSpec LgrProofs LgrReach LgrInv LgrRefs LgrFinal.
From Verif Require Import ValidateModel ValidateSpec ValidateProofs PopulateModel PopulateSpec PopulateProofs.
From Verif Require Import CompareModel CompareProofs HarmonizeModel HarmonizeSpec HarmonizeProofs HarmonizeFinal MergeModel MergeProofs MergeSteps.
Open Scope string_scope.
Open Scope list_scope.

Section Ord.
  Variable ord_names : list string -> list string.
  Variable ord_variants : list variant -> list variant.
  Hypothesis Pn : forall l, Permutation (ord_names l) l.
  Hypothesis Pv : forall l, Permutation (ord_variants l) l.
  Section Member.
  Variables (script : string) (previous : list string) (ext : option (N -> list string)).
  Variables (mp : dict string string) (rules : list string).
  Notation head_step := (head_step ord_names script previous ext mp).
  Notation added := (added script mp).
  Notation rule_pairs := (rule_pairs script previous).

  Lemma head_step_same : forall ex ex1 ch ch', same_entry ex ex1 -> head_step (Some ex1) ch ch' -> head_step (Some ex) ch ch'.
  Proof.
    intros ex ex1 ch ch' [A1 [A2 [A3 [A4 [A5 [A6 A7]]]]]] [jw [jn [H1 [H2 H3]]]]. exists jw, jn. rewrite <- A6, <- A7. split; [exact H1|]. split; [exact H2|].
    unfold old_head in *. rewrite <- A1, <- A2, <- A3, <- A4, <- A5. exact H3.
  Qed.
  Lemma rule_pairs_same : forall ex ex1 ch x, same_entry ex ex1 -> (rule_pairs (Some ex1) ch x <-> rule_pairs (Some ex) ch x).
  Proof. intros ex ex1 ch x [A1 [A2 [A3 [A4 [A5 [A6 A7]]]]]]. unfold MergeSteps.rule_pairs. rewrite A6, A7. tauto. Qed.

  (** After the entries [D]. *)
  Record through (g0 : lgr) (acc0 : list string) (D : list char) (w : work) : Prop := mkThrough {
    th_shape : shape (wk_lgr w);
    th_refs : lg_refs (wk_lgr w) = lg_refs g0;
    th_old : forall a x, ~ In a (map ch_cp D) -> lk (lg_rep g0) a = Some x -> exists y, lk (lg_rep (wk_lgr w)) a = Some y /\ same_entry x y;
    th_none : forall a, ~ In a (map ch_cp D) -> lk (lg_rep g0) a = None -> lk (lg_rep (wk_lgr w)) a = None;
    th_here : forall ch, In ch D -> exists ch', lk (lg_rep (wk_lgr w)) (ch_cp ch) = Some ch' /\ head_step (lk (lg_rep g0) (ch_cp ch)) ch ch';
    th_map : forall a b u, mapping (lg_rep (wk_lgr w)) a b u <-> mapping (lg_rep g0) a b u \/ (v_cp u = b /\ exists ch, In ch D /\ added g0 ch a u);
    th_pairs : forall p, In p (wk_new w) -> exists ch, In ch D /\ pair_of g0 ch p;
    th_all : forall ch v1 v2, In ch D -> In v1 (get_variants ch) -> fresh_at g0 (ch_cp ch) v1 -> v_cp v1 <> ch_cp ch ->
       mapping (lg_rep g0) (ch_cp ch) (v_cp v2) v2 -> ~ In (vkey v2) (map vkey (get_variants ch)) -> v_cp v2 <> ch_cp ch ->
       exists p, In p (wk_new w) /\ In v1 (fst p) /\ In v2 (snd p);
    th_rules : forall n, In n (wk_rules w) <-> In n acc0 \/
       exists ch s k r, In ch D /\ rule_pairs (lk (lg_rep g0) (ch_cp ch)) ch (s, k) /\ In r rules /\ (truthy (Some k) = true -> k = r) /\ n = rename_rule s r
  }.

  Lemma through_start : forall g acc, shape g -> through g acc [] (mkWork g acc []).
  Proof.
    intros g acc S. constructor; cbn; auto.
    - intros a x _ H. exists x. split; [exact H|apply same_entry_refl].
    - intros ch [].
    - intros a b u. split; [auto|]. intros [H|[_ [ch [[] _]]]]. exact H.
    - intros p [].
    - intros ch v1 v2 [].
    - intro n. split; [auto|]. intros [H|[ch [s [k [r [[] _]]]]]]. exact H.
  Qed.

  Lemma through_step : forall g0 acc0 D w ch w', shape g0 -> through g0 acc0 D w -> wf_char ch -> ch_cp ch <> [] -> ~ In (ch_cp ch) (map ch_cp D) ->
    (if memb cps_eqb (ch_cp ch) (cps_of g0) then merge_existing ord_names ord_variants script previous ext mp rules w ch
     else merge_new ord_names script ext mp w ch) = Ok w' ->
    through g0 acc0 (D ++ [ch]) w'.
  Proof.
    intros g0 acc0 D w ch w' S0 T Hw Hne Hni E. destruct T as [T1 T2 T3 T4 T5 T6 T7 T8 T9].
    assert (Hmp : forall b u, mapping (lg_rep (wk_lgr w)) (ch_cp ch) b u <-> mapping (lg_rep g0) (ch_cp ch) b u).
    { intros b u. rewrite T6. split; [|auto]. intros [H|[_ [x [X1 [X2 _]]]]]; [exact H|]. exfalso. apply Hni. rewrite X2. apply in_map. exact X1. }
    assert (Hfr : forall v, fresh_at (wk_lgr w) (ch_cp ch) v <-> fresh_at g0 (ch_cp ch) v).
    { intro v. unfold fresh_at. split; intros H u Hu; apply H; apply Hmp; exact Hu. }
    assert (Hadd : forall a u, MergeSteps.added script mp (wk_lgr w) ch a u <-> added g0 ch a u).
    { intros a u. unfold MergeSteps.added. split; intros [-> [v [V1 [V2 V3]]]]; (split; [reflexivity|]); exists v; (split; [exact V1|]); (split; [apply Hfr; exact V2|exact V3]). }
    assert (Hone : one ord_names script previous ext mp (wk_lgr w) (wk_lgr w') ch ->
      (forall x, lk (lg_rep g0) (ch_cp ch) = Some x -> exists y, lk (lg_rep (wk_lgr w)) (ch_cp ch) = Some y /\ same_entry x y) ->
      shape (wk_lgr w') /\ lg_refs (wk_lgr w') = lg_refs g0 /\
      (forall a x, ~ In a (map ch_cp (D ++ [ch])) -> lk (lg_rep g0) a = Some x -> exists y, lk (lg_rep (wk_lgr w')) a = Some y /\ same_entry x y) /\
      (forall a, ~ In a (map ch_cp (D ++ [ch])) -> lk (lg_rep g0) a = None -> lk (lg_rep (wk_lgr w')) a = None) /\
      (forall c, In c (D ++ [ch]) -> exists ch', lk (lg_rep (wk_lgr w')) (ch_cp c) = Some ch' /\ head_step (lk (lg_rep g0) (ch_cp c)) c ch') /\
      (forall a b u, mapping (lg_rep (wk_lgr w')) a b u <-> mapping (lg_rep g0) a b u \/ (v_cp u = b /\ exists c, In c (D ++ [ch]) /\ added g0 c a u))).
    { intros [O1 O2 O3 O4 O5 O6] Hold. split; [exact O1|]. split; [congruence|].
      assert (Hd : forall a, ~ In a (map ch_cp (D ++ [ch])) -> ~ In a (map ch_cp D) /\ a <> ch_cp ch).
      { intros a H. rewrite map_app, in_app_iff in H. cbn in H. split; [tauto|]. intro X. apply H. right. left. congruence. }
      split; [|split; [|split]].
      - intros a x Ha Hx. destruct (Hd a Ha) as [H1 H2]. destruct (T3 a x H1 Hx) as [y [Y1 Y2]]. destruct (O3 a y H2 Y1) as [z [Z1 Z2]]. exists z. split; [exact Z1|eapply same_entry_trans; eauto].
      - intros a Ha Hx. destruct (Hd a Ha) as [H1 H2]. apply O4; auto.
      - intros c Hc. apply in_app_iff in Hc. destruct Hc as [Hc|[<-|[]]].
        + destruct (T5 c Hc) as [y [Y1 Y2]]. assert (Hne2 : ch_cp c <> ch_cp ch) by (intro X; apply Hni; rewrite <- X; apply in_map; exact Hc).
          destruct (O3 (ch_cp c) y Hne2 Y1) as [z [Z1 Z2]]. exists z. split; [exact Z1|].
          unfold MergeSteps.head_step in *. destruct (lk (lg_rep g0) (ch_cp c)).
          * destruct Y2 as [jw [jn [B1 [B2 B3]]]]. exists jw, jn. split; [exact B1|]. split; [exact B2|]. eapply same_entry_trans; eauto.
          * eapply same_entry_trans; eauto.
        + destruct O5 as [y [Y1 Y2]]. exists y. split; [exact Y1|]. destruct (lk (lg_rep g0) (ch_cp ch)) as [x|] eqn:Ex.
          * destruct (Hold x eq_refl) as [z [Z1 Z2]]. rewrite Z1 in Y2. eapply head_step_same; eauto.
          * rewrite (T4 (ch_cp ch) Hni Ex) in Y2. exact Y2.
      - intros a b u. rewrite O6, T6. rewrite Hadd. split.
        + intros [[H|[H1 [c [C1 C2]]]]|[H1 H2]]; [auto| |]; right; (split; [exact H1|]); [exists c|exists ch]; rewrite in_app_iff; cbn; auto.
        + intros [H|[H1 [c [C1 C2]]]]; [auto|]. apply in_app_iff in C1. destruct C1 as [C1|[<-|[]]]; [left; right; eauto|right; auto]. }
    destruct (memb cps_eqb (ch_cp ch) (cps_of g0)) eqn:Em.
    - destruct (merge_existing_one ord_names ord_variants Pv script previous ext mp rules w ch w' T1 Hw Hne E) as [Hp [O [Hr [Hpa Hal]]]].
      destruct (Hone O (fun x Hx => T3 (ch_cp ch) x Hni Hx)) as [Q1 [Q2 [Q3 [Q4 [Q5 Q6]]]]].
      apply (memb_In _ _ cps_eqb_eq) in Em. apply (proj1 (proj2 (shape_iter g0 S0))) in Em.
      destruct (lk (lg_rep g0) (ch_cp ch)) as [x|] eqn:Ex; [|congruence]. destruct (T3 (ch_cp ch) x Hni Ex) as [y [Y1 Y2]].
      assert (Hgrow : forall p, In p (wk_new w) -> In p (wk_new w')).
      { intros p H. destruct Hpa as [->|[q [-> _]]]; [exact H|apply in_app_iff; auto]. }
      constructor; auto.
      + intros p Hpin. assert (X : In p (wk_new w) \/ pair_of (wk_lgr w) ch p).
        { destruct Hpa as [Hpa|[q [Hpa Hq]]]; rewrite Hpa in Hpin; [auto|]. apply in_app_iff in Hpin. destruct Hpin as [|[<-|[]]]; auto. }
        destruct X as [X|[X1 [X2 [X3 X4]]]].
        * destruct (T7 p X) as [c [C1 C2]]. exists c. rewrite in_app_iff. auto.
        * exists ch. rewrite in_app_iff. split; [cbn; auto|]. split; [congruence|]. split; [|split]; intros v Hv.
          -- destruct (X2 v Hv). split; [assumption|]. apply Hfr. assumption.
          -- apply Hmp. apply X3. exact Hv.
          -- apply X4. exact Hv.
      + intros c v1 v2 Hc H1 H2 H3 H4 H5 H6. apply in_app_iff in Hc. destruct Hc as [Hc|[<-|[]]].
        * destruct (T8 c v1 v2 Hc H1 H2 H3 H4 H5 H6) as [p [P1 P2]]. exists p. split; [apply Hgrow; exact P1|exact P2].
        * destruct (Hal v1 v2 H1 (proj2 (Hfr v1) H2) H3 (proj2 (Hmp _ _) H4) H5 H6) as [p [P1 P2]]. exists p. split; [rewrite P1; apply in_app_iff; cbn; auto|exact P2].
      + intro n. rewrite Hr, T9. rewrite Y1. split.
        * intros [[H|[c [s [k [r [C1 C2]]]]]]|[s [k [r [C1 C2]]]]]; [auto| |]; right.
          -- exists c, s, k, r. rewrite in_app_iff. auto.
          -- exists ch, s, k, r. rewrite in_app_iff. split; [cbn; auto|]. split; [|exact C2]. rewrite Ex. apply (rule_pairs_same x y ch (s, k) Y2). exact C1.
        * intros [H|[c [s [k [r [C1 [C2 C3]]]]]]]; [auto|]. apply in_app_iff in C1. destruct C1 as [C1|[<-|[]]]; [left; right; exists c, s, k, r; auto|].
          right. exists s, k, r. split; [|exact C3]. apply (rule_pairs_same x y ch (s, k) Y2). rewrite Ex in C2. exact C2.
    - assert (Hno : lk (lg_rep g0) (ch_cp ch) = None).
      { destruct (lk (lg_rep g0) (ch_cp ch)) eqn:Ex; [|reflexivity]. exfalso. assert (Hin : In (ch_cp ch) (cps_of g0)) by (apply (proj1 (proj2 (shape_iter g0 S0))); congruence).
        apply (memb_In _ _ cps_eqb_eq) in Hin. congruence. }
      destruct (merge_new_one ord_names script previous ext mp w ch w' T1 Hw Hne (T4 _ Hni Hno) E) as [O [Hr Hp]].
      destruct (Hone O) as [Q1 [Q2 [Q3 [Q4 [Q5 Q6]]]]]; [intros x Hx; congruence|].
      constructor; auto.
      + rewrite Hp. intros p H. destruct (T7 p H) as [c [C1 C2]]. exists c. rewrite in_app_iff. auto.
      + rewrite Hp. intros c v1 v2 Hc H1 H2 H3 H4 H5 H6. apply in_app_iff in Hc. destruct Hc as [Hc|[<-|[]]]; [eapply T8; eauto|].
        rewrite mapping_lk, Hno in H4. destruct H4 as [z [Z _]]. discriminate.
      + intro n. rewrite Hr, T9. split.
        * intros [H|[c [s [k [r [C1 C2]]]]]]; [auto|]. right. exists c, s, k, r. rewrite in_app_iff. auto.
        * intros [H|[c [s [k [r [C1 [C2 C3]]]]]]]; [auto|]. apply in_app_iff in C1. destruct C1 as [C1|[<-|[]]]; [right; exists c, s, k, r; auto|].
          rewrite Hno in C2. destruct C2.
  Qed.

  Lemma through_loop : forall g0 acc0 l D w w', shape g0 -> through g0 acc0 D w -> (forall ch, In ch l -> wf_char ch /\ ch_cp ch <> []) ->
    NoDup (map ch_cp (D ++ l)) -> merge_loop ord_names ord_variants script previous ext mp rules (cps_of g0) w l = Ok w' ->
    through g0 acc0 (D ++ l) w'.
  Proof.
    intros g0 acc0. induction l as [|ch l IH]; intros D w w' S T Hl Hn E.
    - injection E as <-. rewrite app_nil_r. exact T.
    - cbn [merge_loop] in E. apply bind_ok in E. destruct E as [w1 [E1 E]]. replace (D ++ ch :: l) with ((D ++ [ch]) ++ l) in * by (rewrite <- app_assoc; reflexivity).
      apply IH with (w := w1); auto.
      + destruct (Hl ch (or_introl eq_refl)) as [W1 W2]. apply through_step with (w := w); auto.
        intro Hi. rewrite !map_app in Hn. cbn in Hn. rewrite <- app_assoc in Hn. apply NoDup_remove_2 in Hn. apply Hn. apply in_app_iff. auto.
      + intros c Hc. apply Hl. right. exact Hc.
  Qed.

  (** ** A whole member *)
  Record absorbed (g g' e : lgr) (acc acc' : list string) (P : list (list variant * list variant)) : Prop := mkAbsorbed {
    ab_shape : shape g';
    ab_refs : lg_refs g' = lg_refs g;
    ab_entries : forall a, lk (lg_rep g') a <> None <-> lk (lg_rep g) a <> None \/ lk (lg_rep e) a <> None;
    ab_old : forall a x, lk (lg_rep e) a = None -> lk (lg_rep g) a = Some x -> exists y, lk (lg_rep g') a = Some y /\ same_entry x y;
    ab_here : forall a ch, lk (lg_rep e) a = Some ch -> exists ch', lk (lg_rep g') a = Some ch' /\ head_step (lk (lg_rep g) a) ch ch';
    ab_map : forall a b u, mapping (lg_rep g') a b u <-> mapping (lg_rep g) a b u \/
      (exists v, mapping (lg_rep e) a b v /\ fresh_at g a v /\ u = carried script mp v) \/ (v_cp u = b /\ joined P a u);
    ab_pairs : forall p, In p P -> exists a ch, lk (lg_rep e) a = Some ch /\ pair_of g ch p;
    ab_all : forall a v1 v2, mapping (lg_rep e) a (v_cp v1) v1 -> fresh_at g a v1 -> v_cp v1 <> a ->
       mapping (lg_rep g) a (v_cp v2) v2 -> (forall u, mapping (lg_rep e) a (v_cp v2) u -> vkey u <> vkey v2) -> v_cp v2 <> a ->
       exists p, In p P /\ In v1 (fst p) /\ In v2 (snd p);
    ab_rules : forall n, In n acc' <-> In n acc \/
       exists a ch s k r, lk (lg_rep e) a = Some ch /\ rule_pairs (lk (lg_rep g) a) ch (s, k) /\ In r rules /\ (truthy (Some k) = true -> k = r) /\ n = rename_rule s r;
    ab_distinct : forall p v1 v2, In p P -> In v1 (fst p) -> In v2 (snd p) -> v_cp v1 <> v_cp v2
  }.
  Lemma merge_chars_absorbed : forall g e acc g' acc', shape g -> expanded e ->
    merge_chars ord_names ord_variants g e script previous ext mp rules acc = Ok (g', acc') ->
    exists P, absorbed g g' e acc acc' P.
  Proof.
    intros g e acc g' acc' S X E. unfold merge_chars in E. apply bind_ok in E. destruct E as [w [E1 E]]. apply bind_ok in E. destruct E as [g1 [E2 E]].
    injection E as -> <-. pose proof X as [Xr [Xg Xn]]. pose proof (lgr_reachable_wf _ Xr) as Hwf.
    destruct (iter_general _ Hwf) as [_ [Hnd [Hsub Hnr]]].
    assert (HI : forall ch, In ch (rep_iter (lg_rep e)) <-> lk (lg_rep e) (ch_cp ch) = Some ch).
    { intro ch. split; intro H; [apply (in_all_chars_lk _ _ Hwf); auto|]. apply Hnr; [apply (in_all_chars_lk _ _ Hwf); exact H|apply (Xn _ _ H)]. }
    assert (T : through g acc (rep_iter (lg_rep e)) w).
    { apply (through_loop g acc (rep_iter (lg_rep e)) [] (mkWork g acc []) w S (through_start g acc S)); [|exact Hnd|exact E1].
      intros ch Hc. apply HI in Hc. split; [apply (lk_wf _ _ _ Hwf Hc)|]. apply (lk_nonempty (lg_rep e)). congruence. }
    destruct T as [T1 T2 T3 T4 T5 T6 T7 T8 T9]. pose proof (cross_all_grown ord_variants Pv _ _ _ T1 E2) as [A1 A2 A3 A4 A5].
    assert (HD : forall a, In a (map ch_cp (rep_iter (lg_rep e))) <-> lk (lg_rep e) a <> None).
    { intro a. exact (proj2 (cps_expanded e X) a ) || (rewrite <- lookup_lk; exact (proj2 (cps_expanded e X) a)). }
    assert (HE : forall a ch, lk (lg_rep e) a = Some ch -> In ch (rep_iter (lg_rep e)) /\ ch_cp ch = a).
    { intros a ch H. pose proof (lk_cp _ _ _ H) as Hc. split; [apply HI; congruence|exact Hc]. }
    exists (wk_new w). constructor.
    - exact A1.
    - congruence.
    - intro a. destruct (lk (lg_rep e) a) as [ch|] eqn:Ee.
      + destruct (HE a ch Ee) as [I1 I2]. destruct (T5 ch I1) as [y [Y1 _]]. rewrite I2 in Y1. destruct (A3 a y Y1) as [z [Z1 _]]. rewrite Z1. split; [intros _; right; discriminate|discriminate].
      + assert (Hn : ~ In a (map ch_cp (rep_iter (lg_rep e)))) by (rewrite HD, Ee; tauto).
        destruct (lk (lg_rep g) a) as [x|] eqn:Eg.
        * destruct (T3 a x Hn Eg) as [y [Y1 _]]. destruct (A3 a y Y1) as [z [Z1 _]]. rewrite Z1. split; [intros _; left; discriminate|discriminate].
        * rewrite (A4 a (T4 a Hn Eg)). tauto.
    - intros a x Ee Eg. assert (Hn : ~ In a (map ch_cp (rep_iter (lg_rep e)))) by (rewrite HD, Ee; tauto).
      destruct (T3 a x Hn Eg) as [y [Y1 Y2]]. destruct (A3 a y Y1) as [z [Z1 Z2]]. exists z. split; [exact Z1|eapply same_entry_trans; eauto].
    - intros a ch Ee. destruct (HE a ch Ee) as [I1 I2]. destruct (T5 ch I1) as [y [Y1 Y2]]. rewrite I2 in Y1, Y2. destruct (A3 a y Y1) as [z [Z1 Z2]]. exists z. split; [exact Z1|].
      unfold MergeSteps.head_step in *. destruct (lk (lg_rep g) a).
      + destruct Y2 as [jw [jn [B1 [B2 B3]]]]. exists jw, jn. split; [exact B1|]. split; [exact B2|]. eapply same_entry_trans; eauto.
      + eapply same_entry_trans; eauto.
    - intros a b u. rewrite A5, T6. split.
      + intros [[H|[H1 [ch [C1 [C2 [v [V1 [V2 V3]]]]]]]]|[H1 H2]]; [auto| |auto]. right. left. exists v. split; [|auto].
        apply HI in C1. apply mapping_lk. exists ch. rewrite C2. split; [exact C1|]. split; [exact V1|]. rewrite <- H1, V3. reflexivity.
      + intros [H|[[v [V1 [V2 V3]]]|H]]; [auto| |auto]. left. right. rewrite mapping_lk in V1. destruct V1 as [ch [C1 [C2 C3]]].
        split; [rewrite V3; exact C3|]. destruct (HE a ch C1) as [I1 I2]. exists ch. split; [exact I1|]. split; [auto|]. eauto.
    - intros p Hp. destruct (T7 p Hp) as [ch [C1 C2]]. exists (ch_cp ch), ch. split; [apply HI; exact C1|exact C2].
    - intros a v1 v2 H1 H2 H3 H4 H5 H6. rewrite mapping_lk in H1. destruct H1 as [ch [C1 [C2 C3]]]. destruct (HE a ch C1) as [I1 I2]. subst a.
      apply (T8 ch v1 v2 I1 C2 H2 H3 H4); [|exact H6]. intro Hi. apply in_map_iff in Hi. destruct Hi as [u [U1 U2]]. apply (H5 u); [|exact U1].
      apply mapping_lk. exists ch. split; [exact C1|]. split; [exact U2|]. unfold vkey in U1. congruence.
    - intro n. rewrite T9. split; (intros [H|H]; [auto|]); right.
      + destruct H as [ch [s [k [r [C1 C2]]]]]. exists (ch_cp ch), ch, s, k, r. split; [apply HI; exact C1|exact C2].
      + destruct H as [a [ch [s [k [r [C1 C2]]]]]]. destruct (HE a ch C1) as [I1 I2]. subst a. exists ch, s, k, r. split; [exact I1|exact C2].
    - exact (cross_all_distinct ord_variants Pv _ _ _ T1 E2).
  Qed.
  End Member.
End Ord.
