From Coq Require Import Permutation.
From Verif Require Import Base BaseFacts CharModel RepSpec RepProofs VariantProofs IterProofs VarSetSpec VarSetProofs.
From Verif Require Import RefModel LgrModel LgrSpec LgrProofs LgrReach LgrInv LgrRefs Rfc7940Model.
From Verif Require Import ValidateModel ValidateSpec ValidateProofs PopulateModel PopulateSpec PopulateProofs PopulateSteps PopulateFinal.
From Verif Require Import CompareModel CompareProofs HarmonizeModel HarmonizeSpec HarmonizeProofs.
Open Scope string_scope.
Open Scope list_scope.

(** ** The loop over the common code points *)
Definition wanted (G H : lgr) (c v : cps) : Prop := has_target (lg_rep H) c v /\ ~ has_target (lg_rep G) c v.
Definition Nw (G H : lgr) (cs : list cps) (a b : cps) (w : variant) : Prop :=
  (In a cs /\ wanted G H a b /\ a <> b /\ w = blocked_variant b) \/
  (lk (lg_rep G) a = None /\ a = b /\ w = outside_variant a /\ exists c, In c cs /\ wanted G H c a).
Definition Ot (G H : lgr) (cs : list cps) (a : cps) : Prop := exists c, In c cs /\ wanted G H c a.

Lemma side : forall G H cs g c vs g', more G g (Nw G H cs) (Ot G H cs) -> lk (lg_rep G) c <> None -> ~ In c cs ->
  NoDup vs -> (forall v, In v vs -> v <> []) -> (forall v, In v vs <-> wanted G H c v) -> carry_all g c vs = (g', Ok tt) ->
  more G g' (Nw G H (c :: cs)) (Ot G H (c :: cs)).
Proof.
  intros G H cs g c vs g' M Hc Hn Hd Hne Hv E.
  assert (Hc' : lk (lg_rep g) c <> None).
  { destruct (lk (lg_rep G) c) as [ch|] eqn:Ec; [|congruence]. destruct (m_old _ _ _ _ M c ch Ec) as [x [Hx _]]. congruence. }
  pose proof (carry_all_more c vs g g' (m_exp _ _ _ _ M) Hc' Hd Hne E) as M2.
  assert (Hg : forall v, lk (lg_rep g) v = None <-> lk (lg_rep G) v = None /\ ~ Ot G H cs v).
  { intro v. destruct (lk (lg_rep G) v) as [cv|] eqn:Ev.
    - destruct (m_old _ _ _ _ M v cv Ev) as [x [Hx _]]. rewrite Hx. split; [discriminate|]. intros [X _]; discriminate.
    - destruct (m_new _ _ _ _ M v Ev) as [X _]. rewrite <- X. destruct (lk (lg_rep g) v); split; auto; try discriminate. intros [_ Y]. exfalso. apply Y. discriminate. }
  eapply more_iff; [exact (more_trans _ _ _ _ _ _ _ M M2)| |].
  - intros a b w. unfold Nw, NewL, New1. split.
    + intros [[[H1 H2]|[H1 [H2 [H3 [x [H4 H5]]]]]]|[v [Hi [[H1 [H2 [H3 H4]]]|[H1 [H2 [H3 H4]]]]]]].
      * left. split; [right; exact H1|exact H2].
      * right. split; [exact H1|]. split; [exact H2|]. split; [exact H3|]. exists x. split; [right; exact H4|exact H5].
      * left. subst. split; [left; reflexivity|]. split; [apply Hv; exact Hi|]. auto.
      * right. subst. split; [apply Hg; exact H1|]. split; [reflexivity|]. split; [reflexivity|]. exists c. split; [left; reflexivity|apply Hv; exact Hi].
    + intros [[[H1|H1] [H2 [H3 H4]]]|[H1 [H2 [H3 [x [[H4|H4] H5]]]]]].
      * right. subst a. exists b. split; [apply Hv; exact H2|]. left. auto.
      * left. left. auto.
      * subst x b. destruct (lk (lg_rep g) a) as [ca|] eqn:Ea.
        -- left. right. split; [exact H1|]. split; [reflexivity|]. split; [exact H3|]. apply (m_new _ _ _ _ M a H1). congruence.
        -- right. exists a. split; [apply Hv; exact H5|]. right. auto.
      * left. right. split; [exact H1|]. split; [exact H2|]. split; [exact H3|]. exists x. auto.
  - intros a Ha. unfold Ot. cbn beta. split.
    + intros [[x [H1 H2]]|[H1 _]]; [exists x; split; [right; exact H1|exact H2]|]. exists c. split; [left; reflexivity|apply Hv; exact H1].
    + intros [x [[H1|H1] H2]]; [|left; exists x; auto]. subst x. destruct (lk (lg_rep g) a) as [ca|] eqn:Ea.
      * left. apply (m_new _ _ _ _ M a Ha). congruence.
      * right. split; [apply Hv; exact H2|]. apply Hg in Ea. apply Ea.
Qed.

Lemma variants_of : forall G N O g c ch, more G g N O -> (forall b w, ~ N c b w) -> lk (lg_rep g) c = Some ch ->
  forall v, In v (map v_cp (get_variants ch)) <-> has_target (lg_rep G) c v.
Proof.
  intros G N O g c ch M Hn Hc v. rewrite in_map_iff. unfold has_target. split.
  - intros [u [H1 H2]]. exists u. assert (Hm : mapping (lg_rep g) c v u) by (apply mapping_lk; exists ch; auto).
    apply (m_map _ _ _ _ M) in Hm. destruct Hm as [Hm|Hm]; [exact Hm|destruct (Hn _ _ Hm)].
  - intros [u Hu]. assert (Hm : mapping (lg_rep g) c v u) by (apply (m_map _ _ _ _ M); left; exact Hu).
    apply mapping_lk in Hm. destruct Hm as [x [H1 [H2 H3]]]. rewrite Hc in H1. injection H1 as H1. subst x. exists u. auto.
Qed.
Lemma get_char_entry : forall g c ch, lgr_reachable g -> lk (lg_rep g) c = Some ch -> lgr_get_char g c = Ok ch.
Proof.
  intros g c ch Hr H. unfold lgr_get_char. assert (Hp : lk (lg_rep g) c <> None) by congruence.
  rewrite (accepting_convert g c (reachable_accepting _ Hr) (lk_nonempty _ _ Hp) Hp). cbn [bind].
  rewrite get_char_lk by (apply (lk_nonempty _ _ Hp)). rewrite H. reflexivity.
Qed.
Lemma target_nonempty : forall g a b, lgr_reachable g -> has_target (lg_rep g) a b -> b <> [].
Proof. intros g a b Hr H. apply (check_convert_id g b b (target_accepted g a b Hr H)). Qed.

Lemma fresh : forall G H cs c, ~ In c cs -> lk (lg_rep G) c <> None -> forall b w, ~ Nw G H cs c b w.
Proof. intros G H cs c H1 H2 b w [[X _]|[X _]]; contradiction. Qed.

Lemma share_step : forall order G1 G2 cs g1 g2 c g1' g2', rearranges order ->
  expanded G1 -> expanded G2 ->
  more G1 g1 (Nw G1 G2 cs) (Ot G1 G2 cs) -> more G2 g2 (Nw G2 G1 cs) (Ot G2 G1 cs) ->
  lk (lg_rep G1) c <> None -> lk (lg_rep G2) c <> None -> ~ In c cs -> share order g1 g2 c = Ok (g1', g2') ->
  more G1 g1' (Nw G1 G2 (c :: cs)) (Ot G1 G2 (c :: cs)) /\ more G2 g2' (Nw G2 G1 (c :: cs)) (Ot G2 G1 (c :: cs)).
Proof.
  intros order G1 G2 cs g1 g2 c g1' g2' Po X1 X2 M1 M2 Hc1 Hc2 Hn E. unfold share in E.
  destruct (lk (lg_rep G1) c) as [k1|] eqn:K1; [|congruence]. destruct (m_old _ _ _ _ M1 c k1 K1) as [c1 [L1 _]].
  destruct (lk (lg_rep G2) c) as [k2|] eqn:K2; [|congruence]. destruct (m_old _ _ _ _ M2 c k2 K2) as [c2 [L2 _]].
  rewrite (get_char_entry _ _ _ (proj1 (m_exp _ _ _ _ M1)) L1), (get_char_entry _ _ _ (proj1 (m_exp _ _ _ _ M2)) L2) in E. cbn [bind] in E.
  assert (F1 : forall b w, ~ Nw G1 G2 cs c b w) by (apply fresh; [exact Hn|congruence]).
  assert (F2 : forall b w, ~ Nw G2 G1 cs c b w) by (apply fresh; [exact Hn|congruence]).
  pose proof (variants_of _ _ _ _ _ _ M1 F1 L1) as V1. pose proof (variants_of _ _ _ _ _ _ M2 F2 L2) as V2.
  destruct (carry_all g2 c (order (set_diff cps_eqb (map v_cp (get_variants c1)) (map v_cp (get_variants c2))))) as [x2 [[]|e]] eqn:E2; [|discriminate].
  cbn [finished bind] in E.
  destruct (carry_all g1 c (order (set_diff cps_eqb (map v_cp (get_variants c2)) (map v_cp (get_variants c1))))) as [x1 [[]|e]] eqn:E1; [|discriminate].
  cbn [finished bind] in E. injection E as Ea Eb. subst x1 x2.
  assert (W1 : forall v, In v (order (set_diff cps_eqb (map v_cp (get_variants c2)) (map v_cp (get_variants c1)))) <-> wanted G1 G2 c v)
    by (intro v; rewrite (perm_In _ _ Po), (set_diff_In _ cps_eqb_eq), V1, V2; reflexivity).
  assert (W2 : forall v, In v (order (set_diff cps_eqb (map v_cp (get_variants c1)) (map v_cp (get_variants c2)))) <-> wanted G2 G1 c v)
    by (intro v; rewrite (perm_In _ _ Po), (set_diff_In _ cps_eqb_eq), V1, V2; reflexivity).
  split.
  - eapply side; [exact M1|congruence|exact Hn| | |exact W1|exact E1].
    + apply (perm_NoDup _ _ Po). apply (set_diff_NoDup _ cps_eqb_eq).
    + intros v Hv. apply W1 in Hv. eapply (target_nonempty G2); [apply X2|apply Hv].
  - eapply side; [exact M2|congruence|exact Hn| | |exact W2|exact E2].
    + apply (perm_NoDup _ _ Po). apply (set_diff_NoDup _ cps_eqb_eq).
    + intros v Hv. apply W2 in Hv. eapply (target_nonempty G1); [apply X1|apply Hv].
Qed.
Lemma share_all_ok : forall order G1 G2 todo cs g1 g2 g1' g2', rearranges order -> expanded G1 -> expanded G2 ->
  more G1 g1 (Nw G1 G2 cs) (Ot G1 G2 cs) -> more G2 g2 (Nw G2 G1 cs) (Ot G2 G1 cs) ->
  (forall c, In c todo -> lk (lg_rep G1) c <> None /\ lk (lg_rep G2) c <> None /\ ~ In c cs) -> NoDup todo ->
  share_all order g1 g2 todo = Ok (g1', g2') ->
  exists cs', (forall c, In c cs' <-> In c todo \/ In c cs) /\
  more G1 g1' (Nw G1 G2 cs') (Ot G1 G2 cs') /\ more G2 g2' (Nw G2 G1 cs') (Ot G2 G1 cs').
Proof.
  intros order G1 G2. induction todo as [|c todo IH]; intros cs g1 g2 g1' g2' Po X1 X2 M1 M2 Ht Hd E; cbn [share_all] in E.
  - injection E as Ea Eb. subst. exists cs. split; [cbn; tauto|]. auto.
  - destruct (share order g1 g2 c) as [[p1 p2]|e] eqn:Es; [|discriminate]. cbn [bind fst snd] in E.
    destruct (Ht c (or_introl eq_refl)) as [T1 [T2 T3]]. inversion Hd as [|? ? D1 D2]; subst.
    destruct (share_step order G1 G2 cs g1 g2 c p1 p2 Po X1 X2 M1 M2 T1 T2 T3 Es) as [N1 N2].
    destruct (IH (c :: cs) p1 p2 g1' g2' Po X1 X2 N1 N2) as [cs' [H1 H2]]; [|exact D2|exact E|].
    + intros x Hx. destruct (Ht x (or_intror Hx)) as [A [B C]]. split; [exact A|]. split; [exact B|]. intros [Y|Y]; [subst; contradiction|contradiction].
    + exists cs'. split; [|exact H2]. intro x. rewrite H1. cbn. tauto.
Qed.

(** ** After completing the variants *)
Section OneSide.
  Variables G H g : lgr.
  Variable cs : list cps.
  Hypothesis X : expanded G.
  Hypothesis Hcs : forall c, In c cs <-> common (lg_rep G) (lg_rep H) c.
  Hypothesis M : more G g (Nw G H cs) (Ot G H cs).

  Lemma taken_iff : forall a, taken_over (lg_rep G) (lg_rep H) a <-> lk (lg_rep G) a = None /\ Ot G H cs a.
  Proof.
    intro a. unfold taken_over, Ot, wanted. rewrite lookup_lk. split; intros [H1 [c H2]]; (split; [exact H1|exists c]); rewrite Hcs in *; tauto.
  Qed.
  Lemma target_mid : forall a b, a <> b -> (has_target (lg_rep g) a b <-> pooled (lg_rep G) (lg_rep H) a b).
  Proof.
    intros a b Hab. unfold pooled. split.
    - intros [w Hw]. apply (m_map _ _ _ _ M) in Hw. destruct Hw as [Hw|[[H1 [[H2 _] _]]|[_ [H2 _]]]]; [left; exists w; exact Hw| |congruence].
      right. split; [apply Hcs; exact H1|exact H2].
    - intros [[w Hw]|[H1 H2]]; [exists w; apply (m_map _ _ _ _ M); left; exact Hw|].
      destruct (has_target_dec (lg_rep G) a b) as [[w Hw]|Hn]; [exists w; apply (m_map _ _ _ _ M); left; exact Hw|].
      exists (blocked_variant b). apply (m_map _ _ _ _ M). right. left. split; [apply Hcs; exact H1|]. split; [split; assumption|]. auto.
  Qed.
  Lemma itself_mid : forall a, has_target (lg_rep g) a a <-> has_target (lg_rep G) a a \/ taken_over (lg_rep G) (lg_rep H) a.
  Proof.
    intro a. rewrite taken_iff. split.
    - intros [w Hw]. apply (m_map _ _ _ _ M) in Hw. destruct Hw as [Hw|[[_ [_ [H1 _]]]|[H1 [_ [_ H2]]]]]; [left; exists w; exact Hw|congruence|].
      right. split; [exact H1|exact H2].
    - intros [[w Hw]|[H1 H2]]; [exists w; apply (m_map _ _ _ _ M); left; exact Hw|].
      exists (outside_variant a). apply (m_map _ _ _ _ M). right. right. auto.
  Qed.
  Lemma linked_mid : forall a b, linked (lg_rep g) a b <-> chained (pooled (lg_rep G) (lg_rep H)) a b.
  Proof.
    intros a b. split; intro L.
    - induction L as [a|a x b H1 H2 IH|a x b H1 H2 IH]; [constructor| |]; destruct (cps_eq_dec a x) as [E|E]; subst; auto.
      + eapply chained_forth; [apply target_mid; eassumption|exact IH].
      + eapply chained_back; [apply (target_mid x a); [congruence|exact H1]|exact IH].
    - induction L as [a|a x b H1 H2 IH|a x b H1 H2 IH]; [constructor| |]; destruct (cps_eq_dec a x) as [E|E]; subst; auto.
      + eapply linked_forth; [apply target_mid; eassumption|exact IH].
      + eapply linked_back; [apply (target_mid x a); [congruence|exact H1]|exact IH].
  Qed.
  Lemma entry_mid : forall a, lk (lg_rep g) a <> None <-> lk (lg_rep G) a <> None \/ taken_over (lg_rep G) (lg_rep H) a.
  Proof.
    intro a. rewrite taken_iff. destruct (lk (lg_rep G) a) as [ch|] eqn:E.
    - destruct (m_old _ _ _ _ M a ch E) as [x [Hx _]]. rewrite Hx. split; [left; discriminate|discriminate].
    - destruct (m_new _ _ _ _ M a E) as [Hx _]. rewrite Hx. split; [auto|]. intros [Y|[_ Y]]; [congruence|exact Y].
  Qed.
  Lemma mentioned_mid : forall a, mentioned (lg_rep g) a <-> lookup (lg_rep G) a <> None \/ exists x, pooled (lg_rep G) (lg_rep H) x a.
  Proof.
    intro a. unfold mentioned. rewrite ?lookup_lk. split.
    - intros [H1|[x H1]].
      + apply entry_mid in H1. destruct H1 as [H1|[_ [c [H1 [H2 _]]]]]; [left; exact H1|]. right. exists c. right. auto.
      + destruct (cps_eq_dec x a) as [E|E]; [|right; exists x; apply target_mid; assumption]. subst x.
        apply target_source in H1. rewrite lookup_lk in H1. apply entry_mid in H1. destruct H1 as [H1|[_ [c [H1 [H2 _]]]]]; [left; exact H1|]. right. exists c. right. auto.
    - intros [H1|[x H1]]; [left; apply entry_mid; left; exact H1|]. destruct (cps_eq_dec x a) as [E|E]; [|right; exists x; apply target_mid; assumption].
      subst x. left. apply entry_mid. left. destruct H1 as [H1|[[H1 _] _]]; [apply target_source in H1|]; rewrite lookup_lk in H1; exact H1.
  Qed.

  Variable h : lgr.
  Hypothesis P : populate g = (h, Ok tt).
  Lemma side_completed : completed (lg_rep G) (lg_rep H) (lg_rep h).
  Proof.
    destruct (populate_completes g h (proj1 (m_exp _ _ _ _ M)) P) as [S1 [S2 [S3 S4]]]. constructor; auto.
    - intro a. rewrite S3. apply mentioned_mid.
    - intros a b Hab. rewrite S4, linked_mid. split; [intros [[_ Y]|[Y _]]; [exact Y|contradiction]|auto].
    - intro a. rewrite S4, itself_mid. split; [intros [[Y _]|[_ Y]]; [congruence|exact Y]|auto].
  Qed.
  Lemma side_respected : expanded h /\ lg_db h = lg_db G /\ lg_raise h = lg_raise G /\ lg_refs h = lg_refs G /\ lg_tags h = lg_tags G /\
    (forall a ch, lookup (lg_rep G) a = Some ch -> exists ch', lookup (lg_rep h) a = Some ch' /\ same_entry ch ch') /\
    (forall a ch', lookup (lg_rep G) a = None -> lookup (lg_rep h) a = Some ch' ->
      (taken_over (lg_rep G) (lg_rep H) a /\ same_entry (outside a) ch') \/ (~ taken_over (lg_rep G) (lg_rep H) a /\ same_entry (PopulateSpec.bare a) ch')) /\
    (forall a b w, mapping (lg_rep h) a b w -> (exists v, mapping (lg_rep G) a b v /\ alike v w) \/ plain_blocked w \/
      (a = b /\ taken_over (lg_rep G) (lg_rep H) a /\ alike (outside_variant a) w)).
  Proof.
    destruct (m_exp _ _ _ _ M) as [E1 [E2 E3]].
    destruct (populate_respects g h _ E1 P) as [R1 [_ [R2 [R3 [R4 [R5 [R6 [R7 [R8 [_ R9]]]]]]]]]].
    destruct (m_rest _ _ _ _ M) as [Q1 [Q2 [Q3 [Q4 Q5]]]].
    assert (Hold : forall a ch, lookup (lg_rep G) a = Some ch -> exists ch', lookup (lg_rep h) a = Some ch' /\ same_entry ch ch').
    { intros a ch Ha. rewrite lookup_lk in Ha. destruct (m_old _ _ _ _ M a ch Ha) as [x [Hx Sx]]. rewrite <- lookup_lk in Hx.
      destruct (R7 a x Hx) as [y [Hy Sy]]. exists y. split; [exact Hy|eapply same_entry_trans; eauto]. }
    split.
    { split; [exact R1|]. split; [congruence|]. intros c ch Hc. rewrite <- lookup_lk in Hc. destruct (lookup (lg_rep g) c) as [x|] eqn:Ex.
      - destruct (R7 c x Ex) as [y [Hy Sy]]. rewrite Hc in Hy. injection Hy as Hy. subst y. rewrite (same_entry_range _ _ Sy). apply (E3 c). rewrite <- lookup_lk. exact Ex.
      - destruct (R8 c ch Hc Ex) as [Sb _]. rewrite (same_entry_range _ _ Sb). unfold PopulateSpec.bare, is_range, kind_of. cbn. destruct c as [|? [|? ?]]; reflexivity. }
    do 4 (split; [congruence|]). split; [exact Hold|]. split.
    - intros a ch' Ha Hh. rewrite lookup_lk in Ha. destruct (m_new _ _ _ _ M a Ha) as [N1 N2]. destruct (lookup (lg_rep g) a) as [x|] eqn:Ex.
      + left. pose proof Ex as Ex'. rewrite lookup_lk in Ex'. split; [apply taken_iff; split; [exact Ha|apply N1; congruence]|].
        destruct (R7 a x Ex) as [y [Hy Sy]]. rewrite Hh in Hy. injection Hy as Hy. subst y. eapply same_entry_trans; [apply (N2 x Ex')|exact Sy].
      + right. rewrite lookup_lk in Ex. split; [intro T; apply taken_iff in T; destruct T as [_ T]; apply N1 in T; congruence|]. apply (R8 a ch' Hh). rewrite lookup_lk. exact Ex.
    - intros a b w Hw. destruct (R9 a b w Hw) as [[v [Hv Av]]|Hp]; [|right; left; exact Hp]. apply (m_map _ _ _ _ M) in Hv.
      destruct Hv as [Hv|[[_ [_ [_ Ev]]]|[Hv [Eab [Ev Hx]]]]]; [left; exists v; auto| |].
      + right. left. subst v. destruct Av as [A1 [A2 A3]]. cbn in *. unfold plain_blocked. auto.
      + right. right. subst v. split; [exact Eab|]. split; [apply taken_iff; split; [exact Hv|exact Hx]|exact Av].
  Qed.
End OneSide.

Lemma cps_expanded : forall g, expanded g -> NoDup (cps_of g) /\ forall c, In c (cps_of g) <-> lookup (lg_rep g) c <> None.
Proof.
  intros g [H1 [H2 H3]]. pose proof (lgr_reachable_wf g H1) as Hwf. destruct (iter_general _ Hwf) as [_ [Hnd [Hsub Hnr]]]. split; [exact Hnd|].
  intro c. rewrite lookup_lk. unfold cps_of. rewrite in_map_iff. split.
  - intros [ch [E Hi]]. apply Hsub in Hi. apply (in_all_chars_lk _ _ Hwf) in Hi. congruence.
  - intro H. destruct (lk (lg_rep g) c) as [ch|] eqn:E; [|congruence]. exists ch. split; [apply (lk_cp _ _ _ E)|].
    apply Hnr; [|apply (H3 c ch E)]. apply in_all_chars_lk; [exact Hwf|]. rewrite (lk_cp _ _ _ E). exact E.
Qed.
Lemma cps_same : forall g, map ch_cp (rep_iter (lg_rep g)) = cps_of g. Proof. reflexivity. Qed.
Lemma common_sym : forall r s c, common r s c <-> common s r c. Proof. unfold common. tauto. Qed.

Theorem expanded_harmonized : forall order G1 G2 h1 h2 r1 r2, rearranges order -> expanded G1 -> expanded G2 ->
  harmonize_expanded order G1 G2 = Ok (h1, h2, (r1, r2)) ->
  exists g1 g2 cs, (forall c, In c cs <-> common (lg_rep G1) (lg_rep G2) c) /\
    more G1 g1 (Nw G1 G2 cs) (Ot G1 G2 cs) /\ more G2 g2 (Nw G2 G1 cs) (Ot G2 G1 cs) /\ populate g1 = (h1, Ok tt) /\ populate g2 = (h2, Ok tt) /\
    only_in (lg_rep G1) (lg_rep G2) r1 /\ only_in (lg_rep G2) (lg_rep G1) r2.
Proof.
  intros order G1 G2 h1 h2 r1 r2 Po X1 X2 E. unfold harmonize_expanded in E. cbv zeta in E. rewrite !cps_same in E.
  destruct (cps_expanded G1 X1) as [D1 I1]. destruct (cps_expanded G2 X2) as [D2 I2].
  destruct (share_all order G1 G2 (order (set_inter cps_eqb (cps_of G2) (cps_of G1)))) as [[g1 g2]|e] eqn:Es; [|discriminate]. cbn [bind fst snd] in E.
  destruct (populate g1) as [p1 [[]|e]] eqn:P1; [|discriminate]. cbn [bind finished] in E.
  destruct (populate g2) as [p2 [[]|e]] eqn:P2; [|discriminate]. cbn [bind finished] in E. injection E as Ea Eb Ec Ed. subst p1 p2 r1 r2.
  assert (Hin : forall c, In c (order (set_inter cps_eqb (cps_of G2) (cps_of G1))) <-> common (lg_rep G1) (lg_rep G2) c)
    by (intro c; rewrite (perm_In _ _ Po), (set_inter_In _ cps_eqb_eq), I1, I2; unfold common; tauto).
  assert (Z : forall A B, expanded A -> more A A (Nw A B []) (Ot A B [])).
  { intros A B XA. eapply more_iff; [apply more_refl; exact XA| |]; unfold Nw, Ot; cbn; intros; [|firstorder]. split; [tauto|]. intros [[[] _]|[_ [_ [_ [x [[] _]]]]]]. }
  destruct (fun A B => share_all_ok order G1 G2 _ [] G1 G2 g1 g2 Po X1 X2 (Z G1 G2 X1) (Z G2 G1 X2) A B Es) as [cs [Hcs [M1 M2]]].
  - intros c Hc. apply Hin in Hc. unfold common in Hc. rewrite !lookup_lk in Hc. cbn. tauto.
  - apply (perm_NoDup _ _ Po). apply (set_inter_NoDup _ cps_eqb_eq).
  - exists g1, g2, cs. split; [intro c; rewrite Hcs, Hin; cbn; tauto|]. do 4 (split; [assumption|]).
    split; (split; [apply (set_diff_NoDup _ cps_eqb_eq)|]); intro a; rewrite (set_diff_In _ cps_eqb_eq), I1, I2, not_none; tauto.
Qed.

(** ** In terms of the LGRs given *)
Lemma spelled_expanded : forall g g', spelled_out g g' -> expanded g'.
Proof.
  intros g g' [H1 [H2 [H3 _]]]. split; [exact H1|]. split; [exact H2|]. intros c ch Hc. rewrite H3 in Hc. destruct (lk (lg_rep g) c) as [x|]; [|discriminate].
  injection Hc as Hc. subst ch. unfold is_range, single. cbn. destruct (ch_kind x); reflexivity.
Qed.
Lemma spelled_lookup : forall g g' c, spelled_out g g' -> lookup (lg_rep g') c = option_map single (lookup (lg_rep g) c).
Proof. intros g g' c [_ [_ [H _]]]. rewrite !lookup_lk. apply H. Qed.
Lemma spelled_present : forall g g' c, spelled_out g g' -> (lookup (lg_rep g') c <> None <-> lookup (lg_rep g) c <> None).
Proof. intros g g' c H. rewrite (spelled_lookup _ _ c H). destruct (lookup (lg_rep g) c); cbn; split; congruence. Qed.
Lemma spelled_absent : forall g g' c, spelled_out g g' -> (lookup (lg_rep g') c = None <-> lookup (lg_rep g) c = None).
Proof. intros g g' c H. rewrite (spelled_lookup _ _ c H). destruct (lookup (lg_rep g) c); cbn; split; congruence. Qed.
Lemma spelled_mapping : forall g g' a b w, spelled_out g g' -> (mapping (lg_rep g') a b w <-> mapping (lg_rep g) a b w).
Proof.
  intros g g' a b w H. unfold mapping. rewrite (spelled_lookup _ _ a H). destruct (lookup (lg_rep g) a) as [x|]; cbn [option_map].
  - split; intros [ch [E [H1 H2]]]; injection E as E; subst ch; eexists; (split; [reflexivity|]); split; auto.
  - split; intros [ch [E _]]; discriminate.
Qed.
Lemma spelled_target : forall g g' a b, spelled_out g g' -> (has_target (lg_rep g') a b <-> has_target (lg_rep g) a b).
Proof. intros g g' a b H. unfold has_target. split; intros [w Hw]; exists w; apply (spelled_mapping g g' a b w H); exact Hw. Qed.
Section Same.
  Variables g1 g2 e1 e2 : lgr.
  Hypothesis S1 : spelled_out g1 e1.
  Hypothesis S2 : spelled_out g2 e2.
  Lemma spelled_pooled : forall a b, pooled (lg_rep e1) (lg_rep e2) a b <-> pooled (lg_rep g1) (lg_rep g2) a b.
  Proof. intros a b. unfold pooled, common. rewrite (spelled_target _ _ a b S1), (spelled_target _ _ a b S2), (spelled_present _ _ a S1), (spelled_present _ _ a S2). tauto. Qed.
  Lemma spelled_taken : forall a, taken_over (lg_rep e1) (lg_rep e2) a <-> taken_over (lg_rep g1) (lg_rep g2) a.
  Proof.
    intro a. unfold taken_over, common. rewrite (spelled_absent _ _ a S1). split; intros [H [c Hc]]; (split; [exact H|]); exists c;
      rewrite (spelled_target _ _ c a S1), (spelled_target _ _ c a S2), (spelled_present _ _ c S1), (spelled_present _ _ c S2) in *; exact Hc.
  Qed.
  Lemma chained_iff : forall R Q : cps -> cps -> Prop, (forall a b, R a b <-> Q a b) -> forall a b, chained R a b -> chained Q a b.
  Proof. intros R Q H a b L. induction L; [constructor|eapply chained_forth|eapply chained_back]; eauto; apply H; assumption. Qed.
  Lemma spelled_completed : forall t, completed (lg_rep e1) (lg_rep e2) t -> completed (lg_rep g1) (lg_rep g2) t.
  Proof.
    intros t [C1 C2 C3 C4 C5]. constructor; auto.
    - intro a. rewrite C1, (spelled_present _ _ a S1). split; (intros [H|[x H]]; [left; exact H|right; exists x; apply spelled_pooled; exact H]).
    - intros a b Hab. rewrite (C4 a b Hab). split; apply chained_iff; intros; rewrite spelled_pooled; tauto.
    - intro a. rewrite C5, (spelled_target _ _ a a S1), spelled_taken. tauto.
  Qed.
  Lemma spelled_only : forall l, only_in (lg_rep e1) (lg_rep e2) l -> only_in (lg_rep g1) (lg_rep g2) l.
  Proof. intros l [H1 H2]. split; [exact H1|]. intro a. rewrite H2, (spelled_present _ _ a S1), (spelled_absent _ _ a S2). tauto. Qed.
End Same.
Lemma expand_db : forall g g' o, lgr_expand_ranges g = (g', o) -> lg_db g' = lg_db g /\ lg_raise g' = lg_raise g.
Proof.
  intros g g' o E. pose proof (step_db g LExpandRanges ltac:(discriminate)) as H. unfold lgr_step in H. rewrite E in H. exact H.
Qed.
Lemma single_trans : forall a b, same_entry (single a) b -> same_but_range a b. Proof. intros. assumption. Qed.

Section Result.
  Variables g1 g2 e1 e2 x1 h1 : lgr.
  Variable cs : list cps.
  Hypothesis S1 : spelled_out g1 e1.
  Hypothesis S2 : spelled_out g2 e2.
  Hypothesis D : lg_db e1 = lg_db g1 /\ lg_raise e1 = lg_raise g1.
  Hypothesis Hcs : forall c, In c cs <-> common (lg_rep e1) (lg_rep e2) c.
  Hypothesis M : more e1 x1 (Nw e1 e2 cs) (Ot e1 e2 cs).
  Hypothesis P : populate x1 = (h1, Ok tt).
  Lemma result_completed : completed (lg_rep g1) (lg_rep g2) (lg_rep h1).
  Proof. apply (spelled_completed g1 g2 e1 e2 S1 S2). eapply side_completed; eauto. Qed.
  Lemma result_respected : respected g1 g2 h1.
  Proof.
    destruct (side_respected e1 e2 x1 cs Hcs M h1 P) as [[R0 [R1 _]] [R2 [R3 [R4 [R5 [R6 [R7 R8]]]]]]].
    destruct S1 as [_ [_ [_ [T1 [T2 _]]]]]. destruct D as [D1 D2]. constructor; try congruence.
    - intros a ch Ha. apply R6. rewrite (spelled_lookup _ _ a S1), Ha. reflexivity.
    - intros a ch' Ha Hh. rewrite <- (spelled_taken g1 g2 e1 e2 S1 S2). apply R7; [|exact Hh]. apply (spelled_absent _ _ a S1). exact Ha.
    - intros a b w Hw. destruct (R8 a b w Hw) as [[v [Hv Av]]|[Hp|[H1 [H2 H3]]]]; auto.
      + left. exists v. split; [apply (spelled_mapping _ _ a b v S1); exact Hv|exact Av].
      + right. right. split; [exact H1|]. split; [apply (spelled_taken g1 g2 e1 e2 S1 S2); exact H2|exact H3].
  Qed.
End Result.

Definition harmonized_pair (g1 g2 h1 h2 : lgr) : Prop :=
  completed (lg_rep g1) (lg_rep g2) (lg_rep h1) /\ completed (lg_rep g2) (lg_rep g1) (lg_rep h2) /\
  (respected g1 g2 h1 /\ respected g2 g1 h2) /\ lg_db h1 = lg_db g1 /\ lg_db h2 = lg_db g2.
Lemma common_flip : forall r s cs, (forall c, In c cs <-> common r s c) -> forall c, In c cs <-> common s r c.
Proof. intros r s cs H c. rewrite H. apply common_sym. Qed.
Lemma expanded_pair : forall order g1 g2 e1 e2 h1 h2 r1 r2, rearranges order ->
  spelled_out g1 e1 -> spelled_out g2 e2 -> lg_db e1 = lg_db g1 /\ lg_raise e1 = lg_raise g1 -> lg_db e2 = lg_db g2 /\ lg_raise e2 = lg_raise g2 ->
  harmonize_expanded order e1 e2 = Ok (h1, h2, (r1, r2)) ->
  expanded h1 /\ expanded h2 /\ harmonized_pair g1 g2 h1 h2 /\ only_in (lg_rep g1) (lg_rep g2) r1 /\ only_in (lg_rep g2) (lg_rep g1) r2.
Proof.
  intros order g1 g2 e1 e2 h1 h2 r1 r2 Po S1 S2 D1 D2 E.
  destruct (expanded_harmonized order e1 e2 h1 h2 r1 r2 Po (spelled_expanded _ _ S1) (spelled_expanded _ _ S2) E) as [x1 [x2 [cs [Hcs [M1 [M2 [P1 [P2 [O1 O2]]]]]]]]].
  pose proof (common_flip _ _ _ Hcs) as Hcs'.
  split; [apply (side_respected e1 e2 x1 cs Hcs M1 h1 P1)|]. split; [apply (side_respected e2 e1 x2 cs Hcs' M2 h2 P2)|]. split.
  - unfold harmonized_pair. split; [|split; [|split; [split|split]]].
    + eapply (result_completed g1 g2 e1 e2 x1 h1 cs); eauto.
    + eapply (result_completed g2 g1 e2 e1 x2 h2 cs); eauto.
    + eapply (result_respected g1 g2 e1 e2 x1 h1 cs); eauto.
    + eapply (result_respected g2 g1 e2 e1 x2 h2 cs); eauto.
    + rewrite <- (proj1 D1). apply (side_respected e1 e2 x1 cs Hcs M1 h1 P1).
    + rewrite <- (proj1 D2). apply (side_respected e2 e1 x2 cs Hcs' M2 h2 P2).
  - split; [apply (spelled_only g1 g2 e1 e2 S1 S2); exact O1|apply (spelled_only g2 g1 e2 e1 S2 S1); exact O2].
Qed.
Lemma already_spelled : forall g, expanded g -> spelled_out g g.
Proof.
  intros g X. pose proof X as [H1 [H2 H3]]. destruct (cps_expanded g X) as [H4 H5].
  assert (Hs : forall c ch, lk (lg_rep g) c = Some ch -> single ch = ch).
  { intros c ch Hc. pose proof (H3 c ch Hc) as Hr. unfold is_range in Hr. unfold single. destruct ch as [a b c0 d e f i j]. cbn in *. destruct b; try discriminate; reflexivity. }
  unfold spelled_out. split; [exact H1|]. split; [exact H2|]. split.
  - intro c. destruct (lk (lg_rep g) c) as [ch|] eqn:E; [|reflexivity]. cbn. rewrite (Hs c ch E). reflexivity.
  - do 3 (split; [reflexivity|]). split; [exact H4|]. split; [intro c; rewrite H5, lookup_lk; tauto|].
    intros c ch E. rewrite (Hs c ch E). apply get_char_entry; assumption.
Qed.

Theorem harmonize_two_ok : forall order g1 g2 h1 h2 r1 r2, rearranges order -> tidy g1 -> tidy g2 ->
  harmonize_two order g1 g2 = Ok (h1, h2, (r1, r2)) ->
  expanded h1 /\ expanded h2 /\ harmonized_pair g1 g2 h1 h2 /\ only_in (lg_rep g1) (lg_rep g2) r1 /\ only_in (lg_rep g2) (lg_rep g1) r2.
Proof.
  intros order g1 g2 h1 h2 r1 r2 Po T1 T2 E. unfold harmonize_two in E.
  destruct (expanded_ok g1 T1) as [e1 [E1 S1]]. destruct (expanded_ok g2 T2) as [e2 [E2 S2]]. rewrite E1, E2 in E. cbn [finished bind] in E.
  exact (expanded_pair order g1 g2 e1 e2 h1 h2 r1 r2 Po S1 S2 (expand_db _ _ _ E1) (expand_db _ _ _ E2) E).
Qed.
Theorem copies_ok : forall order g1 g2 h1 h2 r1 r2, rearranges order -> tidy g1 -> tidy g2 ->
  harmonize_copies order g1 g2 None = Ok (h1, h2, (r1, r2)) ->
  lgr_reachable h1 /\ lgr_reachable h2 /\ completed (lg_rep g1) (lg_rep g2) (lg_rep h1) /\ completed (lg_rep g2) (lg_rep g1) (lg_rep h2) /\
  only_in (lg_rep g1) (lg_rep g2) r1 /\ only_in (lg_rep g2) (lg_rep g1) r2.
Proof.
  intros order g1 g2 h1 h2 r1 r2 Po T1 T2 E. destruct (harmonize_two_ok order g1 g2 h1 h2 r1 r2 Po T1 T2 E) as [X1 [X2 [[C1 [C2 _]] O]]].
  split; [apply X1|]. split; [apply X2|]. auto.
Qed.
Theorem copies_respects : forall order g1 g2 h1 h2 rs, rearranges order -> tidy g1 -> tidy g2 ->
  harmonize_copies order g1 g2 None = Ok (h1, h2, rs) -> respected g1 g2 h1 /\ respected g2 g1 h2.
Proof.
  intros order g1 g2 h1 h2 [r1 r2] Po T1 T2 E. destruct (harmonize_two_ok order g1 g2 h1 h2 r1 r2 Po T1 T2 E) as [_ [_ [[_ [_ [R _]]] _]]]. exact R.
Qed.

Lemma tidy_expand : forall g g' o, tidy g -> lgr_expand_ranges g = (g', o) -> tidy g'.
Proof.
  intros g g' o T E. pose proof (tidy_step g LExpandRanges T I) as H. unfold lgr_step in H. rewrite E in H. exact H.
Qed.
Lemma completed_spelled : forall g e z t, spelled_out g e -> completed (lg_rep e) (lg_rep z) t -> (lgr_reachable z) -> completed (lg_rep g) (lg_rep z) t.
Proof.
  intros g e z t S [C1 C2 C3 C4 C5] _.
  assert (Hp : forall a b, pooled (lg_rep e) (lg_rep z) a b <-> pooled (lg_rep g) (lg_rep z) a b)
    by (intros a b; unfold pooled, common; rewrite (spelled_target _ _ a b S), (spelled_present _ _ a S); tauto).
  assert (Ht : forall a, taken_over (lg_rep e) (lg_rep z) a <-> taken_over (lg_rep g) (lg_rep z) a).
  { intro a. unfold taken_over, common. rewrite (spelled_absent _ _ a S). split; intros [H [c Hc]]; (split; [exact H|]); exists c;
      rewrite (spelled_target _ _ c a S), (spelled_present _ _ c S) in *; exact Hc. }
  constructor; auto.
  - intro a. rewrite C1, (spelled_present _ _ a S). split; (intros [H|[x H]]; [left; exact H|right; exists x; apply Hp; exact H]).
  - intros a b Hab. rewrite (C4 a b Hab). split; apply chained_iff; intros; rewrite Hp; tauto.
  - intro a. rewrite C5, (spelled_target _ _ a a S), Ht. tauto.
Qed.
(** With a root zone LGR: first with that one, then with each other. *)
Theorem copies_root_ok : forall order g1 g2 z h1 h2 r1 r2, rearranges order -> tidy g1 -> tidy g2 -> tidy z ->
  harmonize_copies order g1 g2 (Some z) = Ok (h1, h2, (r1, r2)) ->
  exists m1 m2, completed (lg_rep g1) (lg_rep z) (lg_rep m1) /\ completed (lg_rep g2) (lg_rep z) (lg_rep m2) /\
    completed (lg_rep m1) (lg_rep m2) (lg_rep h1) /\ completed (lg_rep m2) (lg_rep m1) (lg_rep h2) /\
    only_in (lg_rep m1) (lg_rep m2) r1 /\ only_in (lg_rep m2) (lg_rep m1) r2.
Proof.
  intros order g1 g2 z h1 h2 r1 r2 Po T1 T2 T3 E. unfold harmonize_copies in E.
  destruct (expanded_ok g1 T1) as [e1 [E1 S1]]. destruct (expanded_ok g2 T2) as [e2 [E2 S2]]. rewrite E1, E2 in E. cbn [finished bind] in E.
  destruct (harmonize_two order e1 z) as [[[m1 y1] [a1 b1]]|e] eqn:H1; [|discriminate]. cbn [bind fst] in E.
  destruct (harmonize_two order e2 z) as [[[m2 y2] [a2 b2]]|e] eqn:H2; [|discriminate]. cbn [bind fst] in E.
  destruct (harmonize_two_ok order e1 z m1 y1 a1 b1 Po (tidy_expand _ _ _ T1 E1) T3 H1) as [X1 [_ [[C1 _] _]]].
  destruct (harmonize_two_ok order e2 z m2 y2 a2 b2 Po (tidy_expand _ _ _ T2 E2) T3 H2) as [X2 [_ [[C2 _] _]]].
  destruct (expanded_pair order m1 m2 m1 m2 h1 h2 r1 r2 Po (already_spelled _ X1) (already_spelled _ X2) (conj eq_refl eq_refl) (conj eq_refl eq_refl) E) as [_ [_ [[C3 [C4 _]] [O1 O2]]]].
  exists m1, m2. split; [eapply completed_spelled; [exact S1|exact C1|apply tidy_reachable; exact T3]|].
  split; [eapply completed_spelled; [exact S2|exact C2|apply tidy_reachable; exact T3]|]. auto.
Qed.

(** ** Agreement *)
Section Agree.
  Variables r s t u : repertoire.
  Hypothesis Sr : symmetric r.
  Hypothesis Tr : transitive r.
  Hypothesis Ss : symmetric s.
  Hypothesis Ts : transitive s.
  Hypothesis Ct : completed r s t.
  Hypothesis Cu : completed s r u.
  Let shared x := common r s x \/ exists c, common r s c /\ (has_target r c x \/ has_target s c x).
  Lemma shared_here : forall x, lookup t x <> None -> lookup u x <> None -> shared x.
  Proof.
    intros x H1 H2. apply (co_entries _ _ _ Ct) in H1. apply (co_entries _ _ _ Cu) in H2.
    assert (A : lookup r x <> None \/ exists c, common r s c /\ has_target s c x).
    { destruct H1 as [H1|[y [H1|[H1 H3]]]]; [left; exact H1|left; apply (Sr y x H1)|right; exists y; auto]. }
    assert (B : lookup s x <> None \/ exists c, common r s c /\ has_target r c x).
    { destruct H2 as [H2|[y [H2|[H2 H3]]]]; [left; exact H2|left; apply (Ss y x H2)|right; exists y; split; [apply common_sym; exact H2|exact H3]]. }
    destruct A as [A|[c [A1 A2]]]; [|right; exists c; auto]. destruct B as [B|[c [B1 B2]]]; [left; split; assumption|right; exists c; auto].
  Qed.
  Lemma own_edge : forall x y, shared x -> has_target r x y -> shared y /\ chained (pooled s r) x y.
  Proof.
    intros x y [Hx|[c [Hc [H1|H1]]]] H.
    - split; [right; exists x; auto|]. eapply chained_forth; [right; split; [apply common_sym; exact Hx|exact H]|constructor].
    - assert (E1 : pooled s r c x) by (right; split; [apply common_sym; exact Hc|exact H1]).
      destruct (cps_eq_dec y c) as [E|E].
      + subst y. split; [left; exact Hc|]. eapply chained_back; [exact E1|constructor].
      + assert (H2 : has_target r c y) by (apply (Tr c x H1); assumption).
        split; [right; exists c; auto|]. eapply chained_back; [exact E1|]. eapply chained_forth; [right; split; [apply common_sym; exact Hc|exact H2]|constructor].
    - assert (Hx : common r s x) by (split; [eapply target_source; exact H|apply (Ss c x H1)]).
      split; [right; exists x; auto|]. eapply chained_forth; [right; split; [apply common_sym; exact Hx|exact H]|constructor].
  Qed.
  Lemma follow : forall x y, chained (pooled r s) x y -> shared x -> chained (pooled s r) x y.
  Proof.
    assert (Tran : forall R a b c, chained R a b -> chained R b c -> chained R a c).
    { intros R a b c L. induction L; intro K; [exact K|eapply chained_forth|eapply chained_back]; eauto. }
    intros x y L. induction L as [a|a b c H1 H2 IH|a b c H1 H2 IH]; intro Hs; [constructor| |].
    - destruct H1 as [H1|[H1 H3]].
      + destruct (own_edge a b Hs H1) as [H4 H5]. eapply Tran; [exact H5|apply IH; exact H4].
      + eapply chained_forth; [left; exact H3|]. apply IH. right. exists a. auto.
    - destruct H1 as [H1|[H1 H3]].
      + destruct (own_edge a b Hs (proj2 (Sr b a H1))) as [H4 H5]. eapply Tran; [exact H5|apply IH; exact H4].
      + eapply chained_back; [left; exact H3|]. apply IH. left. exact H1.
  Qed.
End Agree.
Lemma completed_agree : forall r s t u, symmetric r -> transitive r -> symmetric s -> transitive s -> completed r s t -> completed s r u ->
  forall a b, a <> b -> lookup t a <> None -> lookup u a <> None -> (has_target t a b <-> has_target u a b).
Proof.
  intros r s t u Sr Tr Ss Ts Ct Cu a b Hab H1 H2. rewrite (co_related _ _ _ Ct a b Hab), (co_related _ _ _ Cu a b Hab). split; intro H.
  - apply (follow r s Sr Tr Ss a b H). apply (shared_here r s t u Sr Ss Ct Cu); assumption.
  - apply (follow s r Ss Ts Sr a b H). apply (shared_here s r u t Ss Sr Cu Ct); assumption.
Qed.
Theorem copies_agree : forall order g1 g2 h1 h2 rs, rearranges order -> tidy g1 -> tidy g2 ->
  symmetric (lg_rep g1) -> transitive (lg_rep g1) -> symmetric (lg_rep g2) -> transitive (lg_rep g2) ->
  harmonize_copies order g1 g2 None = Ok (h1, h2, rs) ->
  forall a b, a <> b -> lookup (lg_rep h1) a <> None -> lookup (lg_rep h2) a <> None ->
    (has_target (lg_rep h1) a b <-> has_target (lg_rep h2) a b).
Proof.
  intros order g1 g2 h1 h2 [r1 r2] Po T1 T2 Sa Ta Sb Tb E. destruct (copies_ok order g1 g2 h1 h2 r1 r2 Po T1 T2 E) as [_ [_ [C1 [C2 _]]]].
  exact (completed_agree _ _ _ _ Sa Ta Sb Tb C1 C2).
Qed.
Theorem copies_root_agree : forall order g1 g2 z h1 h2 rs, rearranges order -> tidy g1 -> tidy g2 -> tidy z ->
  harmonize_copies order g1 g2 (Some z) = Ok (h1, h2, rs) ->
  forall a b, a <> b -> lookup (lg_rep h1) a <> None -> lookup (lg_rep h2) a <> None ->
    (has_target (lg_rep h1) a b <-> has_target (lg_rep h2) a b).
Proof.
  intros order g1 g2 z h1 h2 [r1 r2] Po T1 T2 T3 E. destruct (copies_root_ok order g1 g2 z h1 h2 r1 r2 Po T1 T2 T3 E) as [m1 [m2 [M1 [M2 [C1 [C2 _]]]]]].
  apply (completed_agree _ _ _ _ (co_symmetric _ _ _ M1) (co_transitive _ _ _ M1) (co_symmetric _ _ _ M2) (co_transitive _ _ _ M2) C1 C2).
Qed.

(** ** A second run *)
Lemma completed_again : forall r s t u t', symmetric r -> transitive r -> symmetric s -> transitive s -> completed r s t -> completed s r u -> completed t u t' ->
  (forall a, lookup t' a <> None <-> lookup t a <> None) /\ forall a b, has_target t' a b <-> has_target t a b.
Proof.
  intros r s t u t' Sr Tr Ss Ts Ct Cu C'. pose proof (completed_agree r s t u Sr Tr Ss Ts Ct Cu) as Ag.
  pose proof (co_symmetric _ _ _ Ct) as St. pose proof (co_transitive _ _ _ Ct) as Tt.
  assert (Hp : forall a b, a <> b -> pooled t u a b -> has_target t a b) by (intros a b Hab [H|[[H1 H2] H3]]; [exact H|apply Ag; assumption]).
  split.
  - intro a. rewrite (co_entries _ _ _ C'). split; [|auto]. intros [H|[x H]]; [exact H|]. destruct (cps_eq_dec x a) as [E|E].
    + subst x. destruct H as [H|[[H _] _]]; [eapply target_source; exact H|exact H].
    + apply (St x a). apply Hp; assumption.
  - intros a b. destruct (cps_eq_dec a b) as [E|E].
    + subst b. rewrite (co_itself _ _ _ C'). split; [|auto]. intros [H|[H1 [c [[H2 H3] [H4 H5]]]]]; [exact H|]. exfalso. apply H5.
      destruct (cps_eq_dec c a) as [Ec|Ec]; [subst; contradiction|]. apply Ag; assumption.
    + rewrite (co_related _ _ _ C' a b E). split.
      * assert (Q : forall x y, chained (pooled t u) x y -> x = y \/ has_target t x y).
        { assert (J : forall x y z, has_target t x y -> y = z \/ has_target t y z -> x = z \/ has_target t x z).
          { intros x y z H1 [H2|H2]; [subst; auto|]. destruct (cps_eq_dec z x) as [Ez|Ez]; [auto|]. right. apply (Tt x y H1); assumption. }
          intros x y L. induction L as [x|x w y H1 H2 IH|x w y H1 H2 IH]; [auto| |]; (destruct (cps_eq_dec x w) as [Ew|Ew]; [subst; exact IH|]).
          - apply (J x w y); [apply Hp; assumption|exact IH].
          - apply (J x w y); [|exact IH]. apply (St w x). apply Hp; [congruence|exact H1]. }
        intro L. destruct (Q a b L); [contradiction|assumption].
      * intro H. eapply chained_forth; [left; exact H|constructor].
Qed.
Lemma expanded_tidy_free : forall order h1 h2 k1 k2 rs, rearranges order -> expanded h1 -> expanded h2 ->
  harmonize_copies order h1 h2 None = Ok (k1, k2, rs) -> harmonized_pair h1 h2 k1 k2.
Proof.
  intros order h1 h2 k1 k2 [r1 r2] Po X1 X2 E. unfold harmonize_copies in E.
  assert (I : forall h, expanded h -> lgr_expand_ranges h = (h, Ok tt)) by (intros h [_ [H _]]; unfold lgr_expand_ranges; rewrite H; reflexivity).
  rewrite (I h1 X1), (I h2 X2) in E. cbn [finished bind] in E.
  destruct (expanded_pair order h1 h2 h1 h2 k1 k2 r1 r2 Po (already_spelled _ X1) (already_spelled _ X2) (conj eq_refl eq_refl) (conj eq_refl eq_refl) E) as [_ [_ [H _]]]. exact H.
Qed.
Theorem copies_again : forall order order' g1 g2 h1 h2 k1 k2 rs qs, rearranges order -> rearranges order' -> tidy g1 -> tidy g2 ->
  symmetric (lg_rep g1) -> transitive (lg_rep g1) -> symmetric (lg_rep g2) -> transitive (lg_rep g2) ->
  harmonize_copies order g1 g2 None = Ok (h1, h2, rs) -> harmonize_copies order' h1 h2 None = Ok (k1, k2, qs) ->
  (forall a, lookup (lg_rep k1) a <> None <-> lookup (lg_rep h1) a <> None) /\ (forall a b, has_target (lg_rep k1) a b <-> has_target (lg_rep h1) a b) /\
  (forall a, lookup (lg_rep k2) a <> None <-> lookup (lg_rep h2) a <> None) /\ (forall a b, has_target (lg_rep k2) a b <-> has_target (lg_rep h2) a b).
Proof.
  intros order order' g1 g2 h1 h2 k1 k2 [r1 r2] qs Po Po' T1 T2 Sa Ta Sb Tb E E'.
  destruct (harmonize_two_ok order g1 g2 h1 h2 r1 r2 Po T1 T2 E) as [X1 [X2 [[C1 [C2 _]] _]]].
  destruct (expanded_tidy_free order' h1 h2 k1 k2 qs Po' X1 X2 E') as [K1 [K2 _]].
  destruct (completed_again _ _ _ _ _ Sa Ta Sb Tb C1 C2 K1) as [A1 A2]. destruct (completed_again _ _ _ _ _ Sb Tb Sa Ta C2 C1 K2) as [B1 B2]. auto.
Qed.
