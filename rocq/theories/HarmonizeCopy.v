From Coq Require Import Permutation.
From Verif Require Import Base BaseFacts CharModel RepSpec RepProofs VariantProofs IterProofs VarSetSpec VarSetProofs.
From Verif Require Import RefModel LgrModel LgrSpec LgrProofs LgrReach LgrInv LgrRefs LgrFinal Rfc7940Model.
From Verif Require Import ValidateModel ValidateSpec ValidateProofs ValidateFinal PopulateModel PopulateSpec PopulateProofs PopulateSteps PopulateBalance PopulateFinal.
From Verif Require Import CompareModel CompareProofs HarmonizeModel HarmonizeSpec HarmonizeProofs HarmonizeFinal HarmonizeKeep.
Open Scope string_scope.
Open Scope list_scope.

(** ** Success *)
Lemma put_plain : forall g c ch v ty cm, expanded g -> lk (lg_rep g) c = Some ch -> check_convert g v = Ok v ->
  ~ has_target (lg_rep g) c v -> exists g', put_variant g c v ty None None cm [] = (g', Ok tt).
Proof.
  intros g c ch v ty cm [Hr [_ Hn]] Hc Hv Ht. pose proof (put_variant_spec g c ch v ty None None cm [] Hr Hc Hv) as H.
  destruct (put_variant g c v ty None None cm []) as [g' o]. destruct H as [_ [[Ho _]|[e [_ [_ [_ H]]]]]]; [subst; eauto|exfalso].
  destruct H as [H|[[H _]|[H|[[x [[] _]]|H]]]]; [|congruence|apply H; constructor|].
  - rewrite (Hn c ch Hc) in H. discriminate.
  - apply in_map_iff in H. destruct H as [u [H1 H2]]. apply Ht. exists u. apply mapping_lk. exists ch. split; [exact Hc|]. split; [exact H2|].
    unfold vkey in H1. congruence.
Qed.
Lemma carry_succeeds : forall g c v, expanded g -> lk (lg_rep g) c <> None -> check_convert g v = Ok v -> ~ has_target (lg_rep g) c v ->
  exists g', carry g c v = (g', Ok tt).
Proof.
  intros g c v X Hc Hv Ht. pose proof (check_convert_id g v v Hv) as [_ Hne]. unfold carry. rewrite rep_contains_lk by exact Hne.
  destruct (lk (lg_rep g) c) as [ch|] eqn:Ec; [|congruence]. destruct (lk (lg_rep g) v) as [cv|] eqn:Ev.
  - destruct (cps_eqb v c); [eauto|]. eapply put_plain; eauto.
  - assert (O : exists g1, add_outside g v = (g1, Ok tt)).
    { unfold add_outside. destruct (add_outside_cp g v (proj1 X) Hv Ev) as [g1 [E1 [R1 [Q1 L1]]]]. rewrite E1. cbn [andthen].
      assert (Lv : lk (lg_rep g1) v = Some (outside v)) by (rewrite L1, cps_eqb_refl; reflexivity).
      eapply put_plain; [|exact Lv| |].
      - split; [exact R1|]. split; [destruct Q1 as [_ [_ [_ [_ Q]]]]; rewrite Q; apply X|]. intros a x Ha. rewrite L1 in Ha. destruct (cps_eqb a v); [|apply (proj2 (proj2 X) a x Ha)].
        injection Ha as Ha. subst x. unfold outside, is_range, kind_of. cbn. destruct v as [|? [|? ?]]; reflexivity.
      - apply entry_accepted; [exact R1|congruence].
      - intros [w Hw]. apply mapping_lk in Hw. destruct Hw as [x [H1 [H2 _]]]. rewrite Lv in H1. injection H1 as H1. subst x. destruct H2. }
    destruct O as [g1 E1]. rewrite E1. cbn [andthen]. pose proof (add_outside_more g v g1 X Hv Ev E1) as M1.
    destruct (m_old _ _ _ _ M1 c ch Ec) as [c1 [Hc1 _]]. eapply put_plain; [apply (m_exp _ _ _ _ M1)|exact Hc1| |].
    + apply entry_accepted; [apply (m_exp _ _ _ _ M1)|]. apply (m_new _ _ _ _ M1 v Ev). reflexivity.
    + intros [w Hw]. apply (m_map _ _ _ _ M1) in Hw. destruct Hw as [Hw|[Hw _]]; [apply Ht; exists w; exact Hw|]. congruence.
Qed.
Lemma carry_all_succeeds : forall c vs g, expanded g -> lk (lg_rep g) c <> None -> NoDup vs ->
  (forall v, In v vs -> check_convert g v = Ok v /\ ~ has_target (lg_rep g) c v) -> exists g', carry_all g c vs = (g', Ok tt).
Proof.
  intros c. induction vs as [|v vs IH]; intros g X Hc Hd Hv; cbn [carry_all]; [eauto|].
  destruct (Hv v (or_introl eq_refl)) as [V1 V2]. destruct (carry_succeeds g c v X Hc V1 V2) as [g1 E1]. rewrite E1. cbn [andthen].
  inversion Hd as [|? ? D1 D2]; subst.
  pose proof (carry_more g c v g1 X Hc (proj2 (check_convert_id g v v V1)) E1) as M1.
  apply IH; [apply (m_exp _ _ _ _ M1)| |exact D2|].
  - destruct (lk (lg_rep g) c) as [ch|] eqn:Ec; [|congruence]. destruct (m_old _ _ _ _ M1 c ch Ec) as [x [Hx _]]. congruence.
  - intros x Hx. destruct (Hv x (or_intror Hx)) as [X1 X2]. split.
    + destruct (m_rest _ _ _ _ M1) as [Q1 [Q2 _]]. unfold check_convert in *. rewrite Q1, Q2. exact X1.
    + intros [w Hw]. apply (m_map _ _ _ _ M1) in Hw. destruct Hw as [Hw|[[_ [_ [Hw _]]]|[_ [H1 [H2 _]]]]]; [apply X2; exists w; exact Hw| |]; subst; contradiction.
Qed.
Lemma share_succeeds : forall order G1 G2 cs g1 g2 c, rearranges order -> expanded G1 -> expanded G2 -> (forall v, check_convert G1 v = check_convert G2 v) ->
  more G1 g1 (Nw G1 G2 cs) (Ot G1 G2 cs) -> more G2 g2 (Nw G2 G1 cs) (Ot G2 G1 cs) ->
  lk (lg_rep G1) c <> None -> lk (lg_rep G2) c <> None -> ~ In c cs -> exists p, share order g1 g2 c = Ok p.
Proof.
  intros order G1 G2 cs g1 g2 c Po X1 X2 Hch M1 M2 Hc1 Hc2 Hn. unfold share.
  destruct (lk (lg_rep G1) c) as [k1|] eqn:K1; [|congruence]. destruct (m_old _ _ _ _ M1 c k1 K1) as [c1 [L1 _]].
  destruct (lk (lg_rep G2) c) as [k2|] eqn:K2; [|congruence]. destruct (m_old _ _ _ _ M2 c k2 K2) as [c2 [L2 _]].
  rewrite (get_char_entry _ _ _ (proj1 (m_exp _ _ _ _ M1)) L1), (get_char_entry _ _ _ (proj1 (m_exp _ _ _ _ M2)) L2). cbn [bind].
  assert (F1 : forall b w, ~ Nw G1 G2 cs c b w) by (apply fresh; [exact Hn|congruence]).
  assert (F2 : forall b w, ~ Nw G2 G1 cs c b w) by (apply fresh; [exact Hn|congruence]).
  pose proof (variants_of _ _ _ _ _ _ M1 F1 L1) as V1. pose proof (variants_of _ _ _ _ _ _ M2 F2 L2) as V2.
  assert (Side : forall G H g ch a b, expanded H -> (forall x w, ~ Nw G H cs c x w) -> more G g (Nw G H cs) (Ot G H cs) -> lk (lg_rep g) c = Some ch -> (forall v, check_convert H v = check_convert G v) ->
    (forall v, In v a <-> has_target (lg_rep H) c v) -> (forall v, In v b <-> has_target (lg_rep G) c v) ->
    exists g', carry_all g c (order (set_diff cps_eqb a b)) = (g', Ok tt)).
  { intros G H g ch a b XH F M L Da Va Vb. apply carry_all_succeeds; [apply (m_exp _ _ _ _ M)|congruence| |].
    - apply (perm_NoDup _ _ Po). apply (set_diff_NoDup _ cps_eqb_eq).
    - intros v Hv. rewrite (perm_In _ _ Po), (set_diff_In _ cps_eqb_eq), Va, Vb in Hv. destruct Hv as [W1 W2]. split.
      + pose proof (target_accepted H c v (proj1 XH) W1) as Hcv. rewrite Da in Hcv. destruct (m_rest _ _ _ _ M) as [Q1 [Q2 _]]. unfold check_convert in *. rewrite Q1, Q2. exact Hcv.
      + intros [w Hw]. apply (m_map _ _ _ _ M) in Hw. destruct Hw as [Hw|Hw]; [apply W2; exists w; exact Hw|exact (F _ _ Hw)]. }
  destruct (Side G2 G1 g2 c2 _ _ X1 F2 M2 L2 Hch V1 V2) as [p2 E2]. rewrite E2. cbn [finished bind].
  destruct (Side G1 G2 g1 c1 _ _ X2 F1 M1 L1 (fun v => eq_sym (Hch v)) V2 V1) as [p1 E1]. rewrite E1. cbn [finished bind]. eauto.
Qed.
Lemma share_all_succeeds : forall order G1 G2 todo cs g1 g2, rearranges order -> expanded G1 -> expanded G2 -> (forall v, check_convert G1 v = check_convert G2 v) ->
  more G1 g1 (Nw G1 G2 cs) (Ot G1 G2 cs) -> more G2 g2 (Nw G2 G1 cs) (Ot G2 G1 cs) ->
  (forall c, In c todo -> lk (lg_rep G1) c <> None /\ lk (lg_rep G2) c <> None /\ ~ In c cs) -> NoDup todo ->
  exists p, share_all order g1 g2 todo = Ok p.
Proof.
  intros order G1 G2. induction todo as [|c todo IH]; intros cs g1 g2 Po X1 X2 Hch M1 M2 Ht Hd; cbn [share_all]; [eauto|].
  destruct (Ht c (or_introl eq_refl)) as [T1 [T2 T3]]. inversion Hd as [|? ? D1 D2]; subst.
  destruct (share_succeeds order G1 G2 cs g1 g2 c Po X1 X2 Hch M1 M2 T1 T2 T3) as [[p1 p2] Es]. rewrite Es. cbn [bind fst snd].
  destruct (share_step order G1 G2 cs g1 g2 c p1 p2 Po X1 X2 M1 M2 T1 T2 T3 Es) as [N1 N2].
  apply (IH (c :: cs) p1 p2 Po X1 X2 Hch N1 N2); [|exact D2].
  intros x Hx. destruct (Ht x (or_intror Hx)) as [A [B C]]. split; [exact A|]. split; [exact B|]. intros [Y|Y]; [subst; contradiction|contradiction].
Qed.
Lemma mid_populates : forall G H g cs, plain_variants G -> more G g (Nw G H cs) (Ot G H cs) -> exists h, populate g = (h, Ok tt).
Proof.
  intros G H g cs Pl M. destruct (m_exp _ _ _ _ M) as [E1 [_ E3]]. apply populate_succeeds; [exact E1|]. split.
  - intros a b ch _ Hb. rewrite lookup_lk in Hb. apply (E3 b ch Hb).
  - intros a b v Hv. apply (m_map _ _ _ _ M) in Hv. destruct (m_rest _ _ _ _ M) as [_ [_ [Q3 _]]].
    destruct Hv as [Hv|[[_ [_ [_ Ev]]]|[_ [_ [Ev _]]]]].
    + destruct (Pl a b v Hv) as [P1 [P2 P3]]. split; [exact P1|]. split; [exact P2|]. intros x Hx. specialize (P3 x Hx). unfold defined_ref in *. rewrite Q3. exact P3.
    + subst v. cbn. split; [auto|]. split; [constructor|]. intros x [].
    + subst v. cbn. split; [auto|]. split; [constructor|]. intros x [].
Qed.
Lemma expanded_succeeds : forall order e1 e2, rearranges order -> expanded e1 -> expanded e2 -> (forall v, check_convert e1 v = check_convert e2 v) ->
  plain_variants e1 -> plain_variants e2 -> exists p, harmonize_expanded order e1 e2 = Ok p.
Proof.
  intros order e1 e2 Po X1 X2 Hch Q1 Q2.
  unfold harmonize_expanded. cbv zeta. rewrite !cps_same. destruct (cps_expanded e1 X1) as [_ I1]. destruct (cps_expanded e2 X2) as [_ I2].
  set (todo := order (set_inter cps_eqb (cps_of e2) (cps_of e1))).
  assert (Z : forall A B, expanded A -> more A A (Nw A B []) (Ot A B [])).
  { intros A B XA. eapply more_iff; [apply more_refl; exact XA| |]; unfold Nw, Ot; cbn; intros; [|firstorder]. split; [tauto|]. intros [[[] _]|[_ [_ [_ [x [[] _]]]]]]. }
  assert (Ht : forall c, In c todo -> lk (lg_rep e1) c <> None /\ lk (lg_rep e2) c <> None /\ ~ In c []).
  { intros c Hc. unfold todo in Hc. rewrite (perm_In _ _ Po), (set_inter_In _ cps_eqb_eq), I1, I2, !lookup_lk in Hc. cbn. tauto. }
  assert (Hd : NoDup todo) by (apply (perm_NoDup _ _ Po); apply (set_inter_NoDup _ cps_eqb_eq)).
  destruct (share_all_succeeds order e1 e2 todo [] e1 e2 Po X1 X2 Hch (Z _ _ X1) (Z _ _ X2) Ht Hd) as [[x1 x2] Es].
  rewrite Es. cbn [bind fst snd].
  destruct (share_all_ok order e1 e2 todo [] e1 e2 x1 x2 Po X1 X2 (Z _ _ X1) (Z _ _ X2) Ht Hd Es) as [cs [_ [M1 M2]]].
  destruct (mid_populates e1 e2 x1 cs Q1 M1) as [h1 H1]. destruct (mid_populates e2 e1 x2 cs Q2 M2) as [h2 H2]. rewrite H1, H2. cbn [finished bind]. eauto.
Qed.
Lemma spelled_plain : forall g e, spelled_out g e -> plain_variants g -> plain_variants e.
Proof.
  intros g e S P a b v Hv. apply (spelled_mapping _ _ a b v S) in Hv. destruct S as [_ [_ [_ [_ [R _]]]]]. unfold defined_ref. rewrite R. apply (P a b v Hv).
Qed.
Lemma unchecked : forall g h, lg_db g = None -> lg_db h = None -> forall v, check_convert g v = check_convert h v.
Proof. intros g h Hg Hh v. unfold check_convert. rewrite Hg, Hh. destruct v; reflexivity. Qed.
Lemma tidy_copy : forall g, tidy g -> tidy (lgr_copy g).
Proof. intros g T. exact (tidy_step g LCopy T I). Qed.


Lemma populate_neat : forall g h, lgr_reachable g -> populate g = (h, Ok tt) -> (populatable g -> populatable h) /\ (neat g -> neat h).
Proof.
  intros g h Hr E. pose proof (populate_outcome g Hr) as H. rewrite E in H. destruct H as [HI _]. cbn [fst] in HI. split; [apply (i_good _ _ HI)|apply (i_neat _ _ HI)].
Qed.
Lemma mid_populatable : forall G H g cs, plain_variants G -> more G g (Nw G H cs) (Ot G H cs) -> populatable g.
Proof.
  intros G H g cs Pl M. destruct (m_exp _ _ _ _ M) as [E1 [_ E3]]. split.
  - intros a b ch _ Hb. rewrite lookup_lk in Hb. apply (E3 b ch Hb).
  - intros a b v Hv. apply (m_map _ _ _ _ M) in Hv. destruct (m_rest _ _ _ _ M) as [_ [_ [Q3 _]]].
    destruct Hv as [Hv|[[_ [_ [_ Ev]]]|[_ [_ [Ev _]]]]].
    + destruct (Pl a b v Hv) as [P1 [P2 P3]]. split; [exact P1|]. split; [exact P2|]. intros x Hx. specialize (P3 x Hx). unfold defined_ref in *. rewrite Q3. exact P3.
    + subst v. cbn. split; [auto|]. split; [constructor|]. intros x [].
    + subst v. cbn. split; [auto|]. split; [constructor|]. intros x [].
Qed.
(** What harmonizing keeps about the first LGR. *)
Lemma expanded_neat : forall order g1 g2 e1 e2 h1 h2 rs, rearranges order -> spelled_out g1 e1 -> spelled_out g2 e2 ->
  harmonize_expanded order e1 e2 = Ok (h1, h2, rs) -> (plain_variants g1 -> plain_variants h1) /\ (neat g1 -> neat h1).
Proof.
  intros order g1 g2 e1 e2 h1 h2 [r1 r2] Po S1 S2 E.
  destruct (expanded_harmonized order e1 e2 h1 h2 r1 r2 Po (spelled_expanded _ _ S1) (spelled_expanded _ _ S2) E) as [x1 [x2 [cs [_ [M1 [_ [P1 _]]]]]]].
  destruct (populate_neat x1 h1 (proj1 (m_exp _ _ _ _ M1)) P1) as [N1 N2]. split; intro H.
  - refine (proj2 (N1 _)). apply (mid_populatable e1 e2 x1 cs); [eapply spelled_plain; eauto|exact M1].
  - apply N2. apply (side_neat e1 e2 x1 cs); [|exact M1]. intros a b v Hv. apply (spelled_mapping _ _ a b v S1) in Hv. apply (H a b v Hv).
Qed.

Theorem copies_succeed : forall order g1 g2 root, rearranges order -> tidy g1 -> tidy g2 -> (forall z, root = Some z -> tidy z /\ lg_db z = None /\ plain_variants z) ->
  lg_db g1 = None -> lg_db g2 = None -> plain_variants g1 -> plain_variants g2 -> exists p, harmonize_copies order g1 g2 root = Ok p.
Proof.
  assert (Two : forall order g1 g2, rearranges order -> tidy g1 -> tidy g2 -> lg_db g1 = None -> lg_db g2 = None -> plain_variants g1 -> plain_variants g2 ->
    exists h1 h2 rs, harmonize_two order g1 g2 = Ok (h1, h2, rs) /\ expanded h1 /\ lg_db h1 = None /\ plain_variants h1).
  { intros order g1 g2 Po T1 T2 D1 D2 P1 P2. destruct (expanded_ok g1 T1) as [e1 [E1 S1]]. destruct (expanded_ok g2 T2) as [e2 [E2 S2]].
    destruct (expand_db _ _ _ E1) as [Da _]. destruct (expand_db _ _ _ E2) as [Dc _].
    destruct (expanded_succeeds order e1 e2 Po (spelled_expanded _ _ S1) (spelled_expanded _ _ S2)) as [[[h1 h2] [r1 r2]] E];
      [apply unchecked; congruence|eapply spelled_plain; eauto|eapply spelled_plain; eauto|].
    assert (E' : harmonize_two order g1 g2 = Ok (h1, h2, (r1, r2))) by (unfold harmonize_two; rewrite E1, E2; exact E).
    exists h1, h2, (r1, r2). split; [exact E'|]. destruct (harmonize_two_ok order g1 g2 h1 h2 r1 r2 Po T1 T2 E') as [X1 [_ [[_ [_ [_ [X2 _]]]] _]]].
    split; [exact X1|]. split; [congruence|]. exact (proj1 (expanded_neat order g1 g2 e1 e2 h1 h2 _ Po S1 S2 E) P1). }
  intros order g1 g2 [z|] Po T1 T2 Tz D1 D2 P1 P2.
  - destruct (Tz z eq_refl) as [T3 [D3 P3]]. unfold harmonize_copies.
    destruct (expanded_ok g1 T1) as [e1 [E1 S1]]. destruct (expanded_ok g2 T2) as [e2 [E2 S2]].
    destruct (expand_db _ _ _ E1) as [Da _]. destruct (expand_db _ _ _ E2) as [Dc _].
    destruct (Two order e1 z Po (tidy_expand _ _ _ T1 E1) T3 ltac:(congruence) D3 (spelled_plain _ _ S1 P1) P3) as [m1 [y1 [q1 [F1 [X1 [Y1 Z1]]]]]].
    destruct (Two order e2 z Po (tidy_expand _ _ _ T2 E2) T3 ltac:(congruence) D3 (spelled_plain _ _ S2 P2) P3) as [m2 [y2 [q2 [F2 [X2 [Y2 Z2]]]]]].
    rewrite E1, E2. cbn [finished bind]. rewrite F1, F2. cbn [bind fst]. apply expanded_succeeds; auto. apply unchecked; assumption.
  - destruct (Two order g1 g2 Po T1 T2 D1 D2 P1 P2) as [h1 [h2 [rs [E _]]]]. exists (h1, h2, rs). exact E.
Qed.
Lemma kept_trans : forall f g h, kept f g -> kept g h -> kept f h.
Proof.
  intros f g h A B a b v Hv. destruct (A a b v Hv) as [w [H1 [H2 H3]]]. destruct (B a b w H1) as [u [K1 [K2 K3]]]. exists u. split; [exact K1|]. split.
  - destruct H2 as [? [? ?]]. destruct K2 as [? [? ?]]. unfold alike. repeat split; congruence.
  - destruct H3 as [->|H3]; [exact K3|right; exact H3].
Qed.
Lemma spelled_kept : forall g e, spelled_out g e -> kept g e /\ (neat g -> neat e).
Proof.
  intros g e S. split.
  - intros a b v Hv. exists v. split; [apply (spelled_mapping _ _ a b v S); exact Hv|]. split; [apply alike_refl|auto].
  - intros H a b v Hv. apply (spelled_mapping _ _ a b v S) in Hv. apply (H a b v Hv).
Qed.
Theorem copies_keep : forall order g1 g2 root h1 h2 rs, rearranges order -> tidy g1 -> tidy g2 -> (forall z, root = Some z -> tidy z) ->
  harmonize_copies order g1 g2 root = Ok (h1, h2, rs) -> (neat g1 -> kept g1 h1) /\ (neat g2 -> kept g2 h2).
Proof.
  intros order g1 g2 [z|] h1 h2 rs Po T1 T2 Tz E; [|exact (copies_keeps order g1 g2 h1 h2 rs Po T1 T2 E)].
  specialize (Tz z eq_refl). unfold harmonize_copies in E.
  assert (Two : forall e h y q, tidy e -> harmonize_two order e z = Ok (h, y, q) -> neat e -> expanded h /\ kept e h /\ neat h).
  { intros e h y [qa qb] Te Ee Ne. destruct (harmonize_two_ok order e z h y qa qb Po Te Tz Ee) as [X _]. split; [exact X|].
    split; [exact (proj1 (copies_keeps order e z h y _ Po Te Tz Ee) Ne)|]. unfold harmonize_two in Ee.
    destruct (expanded_ok e Te) as [e' [E' S']]. destruct (expanded_ok z Tz) as [z' [Ez Sz]]. rewrite E', Ez in Ee. cbn [finished bind] in Ee.
    exact (proj2 (expanded_neat order e z e' z' h y _ Po S' Sz Ee) Ne). }
  destruct (expanded_ok g1 T1) as [e1 [E1 S1]]. destruct (expanded_ok g2 T2) as [e2 [E2 S2]]. rewrite E1, E2 in E. cbn [finished bind] in E.
  destruct (harmonize_two order e1 z) as [[[m1 y1] q1]|e] eqn:H1; [|discriminate]. cbn [bind fst] in E.
  destruct (harmonize_two order e2 z) as [[[m2 y2] q2]|e] eqn:H2; [|discriminate]. cbn [bind fst] in E.
  destruct q1 as [a1 b1]. destruct q2 as [a2 b2].
  destruct (harmonize_two_ok order e1 z m1 y1 a1 b1 Po (tidy_expand _ _ _ T1 E1) Tz H1) as [X1 _].
  destruct (harmonize_two_ok order e2 z m2 y2 a2 b2 Po (tidy_expand _ _ _ T2 E2) Tz H2) as [X2 _].
  destruct (expanded_kept order m1 m2 m1 m2 h1 h2 rs Po (already_spelled _ X1) (already_spelled _ X2) E) as [K1 K2].
  split; intro N.
  - destruct (spelled_kept _ _ S1) as [A1 A2]. destruct (Two e1 m1 y1 _ (tidy_expand _ _ _ T1 E1) H1 (A2 N)) as [_ [B1 B2]].
    eapply kept_trans; [exact A1|]. eapply kept_trans; [exact B1|]. apply K1. exact B2.
  - destruct (spelled_kept _ _ S2) as [A1 A2]. destruct (Two e2 m2 y2 _ (tidy_expand _ _ _ T2 E2) H2 (A2 N)) as [_ [B1 B2]].
    eapply kept_trans; [exact A1|]. eapply kept_trans; [exact B1|]. apply K2. exact B2.
Qed.
Theorem copies_db : forall order g1 g2 root h1 h2 rs, rearranges order -> tidy g1 -> tidy g2 -> (forall z, root = Some z -> tidy z) ->
  harmonize_copies order g1 g2 root = Ok (h1, h2, rs) -> lg_db h1 = lg_db g1 /\ lg_db h2 = lg_db g2.
Proof.
  intros order g1 g2 [z|] h1 h2 [r1 r2] Po T1 T2 Tz E.
  - specialize (Tz z eq_refl). unfold harmonize_copies in E.
    destruct (expanded_ok g1 T1) as [e1 [E1 S1]]. destruct (expanded_ok g2 T2) as [e2 [E2 S2]]. rewrite E1, E2 in E. cbn [finished bind] in E.
    destruct (harmonize_two order e1 z) as [[[m1 y1] [a1 b1]]|e] eqn:H1; [|discriminate]. cbn [bind fst] in E.
    destruct (harmonize_two order e2 z) as [[[m2 y2] [a2 b2]]|e] eqn:H2; [|discriminate]. cbn [bind fst] in E.
    destruct (harmonize_two_ok order e1 z m1 y1 a1 b1 Po (tidy_expand _ _ _ T1 E1) Tz H1) as [X1 [_ [[_ [_ [_ [A _]]]] _]]].
    destruct (harmonize_two_ok order e2 z m2 y2 a2 b2 Po (tidy_expand _ _ _ T2 E2) Tz H2) as [X2 [_ [[_ [_ [_ [B _]]]] _]]].
    destruct (expanded_pair order m1 m2 m1 m2 h1 h2 r1 r2 Po (already_spelled _ X1) (already_spelled _ X2) (conj eq_refl eq_refl) (conj eq_refl eq_refl) E) as [_ [_ [[_ [_ [_ [C D]]]] _]]].
    destruct (expand_db _ _ _ E1) as [Da _]. destruct (expand_db _ _ _ E2) as [Dc _]. split; congruence.
  - destruct (harmonize_two_ok order g1 g2 h1 h2 r1 r2 Po T1 T2 E) as [_ [_ [[_ [_ [_ C]]] _]]]. exact C.
Qed.

(** ** On copies *)
Lemma tidy_copies : forall root, (forall z, root = Some z -> tidy z) -> forall z, option_map lgr_copy root = Some z -> tidy z.
Proof. intros [y|] H z E; [|discriminate]. injection E as <-. apply tidy_copy. apply H. reflexivity. Qed.
Theorem harmonize_ok : forall order g1 g2 h1 h2 r1 r2, rearranges order -> tidy g1 -> tidy g2 ->
  harmonize order g1 g2 None = Ok (h1, h2, (r1, r2)) ->
  lgr_reachable h1 /\ lgr_reachable h2 /\ completed (lg_rep g1) (lg_rep g2) (lg_rep h1) /\ completed (lg_rep g2) (lg_rep g1) (lg_rep h2) /\
  only_in (lg_rep g1) (lg_rep g2) r1 /\ only_in (lg_rep g2) (lg_rep g1) r2.
Proof. intros order g1 g2 h1 h2 r1 r2 Po T1 T2 E. exact (copies_ok order (lgr_copy g1) (lgr_copy g2) h1 h2 r1 r2 Po (tidy_copy _ T1) (tidy_copy _ T2) E). Qed.
Theorem harmonize_agree : forall order g1 g2 h1 h2 rs, rearranges order -> tidy g1 -> tidy g2 ->
  symmetric (lg_rep g1) -> transitive (lg_rep g1) -> symmetric (lg_rep g2) -> transitive (lg_rep g2) ->
  harmonize order g1 g2 None = Ok (h1, h2, rs) ->
  forall a b, a <> b -> lookup (lg_rep h1) a <> None -> lookup (lg_rep h2) a <> None ->
    (has_target (lg_rep h1) a b <-> has_target (lg_rep h2) a b).
Proof. intros order g1 g2 h1 h2 rs Po T1 T2 Sa Ta Sb Tb E. exact (copies_agree order (lgr_copy g1) (lgr_copy g2) h1 h2 rs Po (tidy_copy _ T1) (tidy_copy _ T2) Sa Ta Sb Tb E). Qed.
Theorem harmonize_root_agree : forall order g1 g2 z h1 h2 rs, rearranges order -> tidy g1 -> tidy g2 -> tidy z ->
  harmonize order g1 g2 (Some z) = Ok (h1, h2, rs) ->
  forall a b, a <> b -> lookup (lg_rep h1) a <> None -> lookup (lg_rep h2) a <> None ->
    (has_target (lg_rep h1) a b <-> has_target (lg_rep h2) a b).
Proof. intros order g1 g2 z h1 h2 rs Po T1 T2 T3 E. exact (copies_root_agree order (lgr_copy g1) (lgr_copy g2) (lgr_copy z) h1 h2 rs Po (tidy_copy _ T1) (tidy_copy _ T2) (tidy_copy _ T3) E). Qed.
Theorem harmonize_root_ok : forall order g1 g2 z h1 h2 r1 r2, rearranges order -> tidy g1 -> tidy g2 -> tidy z ->
  harmonize order g1 g2 (Some z) = Ok (h1, h2, (r1, r2)) ->
  exists m1 m2, completed (lg_rep g1) (lg_rep z) (lg_rep m1) /\ completed (lg_rep g2) (lg_rep z) (lg_rep m2) /\
    completed (lg_rep m1) (lg_rep m2) (lg_rep h1) /\ completed (lg_rep m2) (lg_rep m1) (lg_rep h2) /\
    only_in (lg_rep m1) (lg_rep m2) r1 /\ only_in (lg_rep m2) (lg_rep m1) r2.
Proof. intros order g1 g2 z h1 h2 r1 r2 Po T1 T2 T3 E. exact (copies_root_ok order (lgr_copy g1) (lgr_copy g2) (lgr_copy z) h1 h2 r1 r2 Po (tidy_copy _ T1) (tidy_copy _ T2) (tidy_copy _ T3) E). Qed.
Theorem harmonize_removes_nothing : forall order g1 g2 root h1 h2 rs, rearranges order -> tidy g1 -> tidy g2 -> (forall z, root = Some z -> tidy z) ->
  harmonize order g1 g2 root = Ok (h1, h2, rs) -> nothing_removed g1 h1 /\ nothing_removed g2 h2.
Proof.
  intros order g1 g2 root h1 h2 rs Po T1 T2 Tz E.
  exact (copies_removes_nothing order (lgr_copy g1) (lgr_copy g2) (option_map lgr_copy root) h1 h2 rs Po (tidy_copy _ T1) (tidy_copy _ T2) (tidy_copies root Tz) E).
Qed.
Theorem harmonize_respects : forall order g1 g2 h1 h2 rs, rearranges order -> tidy g1 -> tidy g2 ->
  harmonize order g1 g2 None = Ok (h1, h2, rs) -> respected g1 g2 h1 /\ respected g2 g1 h2.
Proof.
  intros order g1 g2 h1 h2 rs Po T1 T2 E. destruct (copies_respects order (lgr_copy g1) (lgr_copy g2) h1 h2 rs Po (tidy_copy _ T1) (tidy_copy _ T2) E) as [R1 R2].
  split; [destruct R1|destruct R2]; constructor; assumption.
Qed.
Theorem harmonize_no_database : forall order g1 g2 root h1 h2 rs, rearranges order -> tidy g1 -> tidy g2 -> (forall z, root = Some z -> tidy z) ->
  harmonize order g1 g2 root = Ok (h1, h2, rs) -> lg_db h1 = None /\ lg_db h2 = None.
Proof.
  intros order g1 g2 root h1 h2 rs Po T1 T2 Tz E.
  exact (copies_db order (lgr_copy g1) (lgr_copy g2) (option_map lgr_copy root) h1 h2 rs Po (tidy_copy _ T1) (tidy_copy _ T2) (tidy_copies root Tz) E).
Qed.
Theorem harmonize_keeps : forall order g1 g2 root h1 h2 rs, rearranges order -> tidy g1 -> tidy g2 -> (forall z, root = Some z -> tidy z) ->
  harmonize order g1 g2 root = Ok (h1, h2, rs) -> (neat g1 -> kept g1 h1) /\ (neat g2 -> kept g2 h2).
Proof.
  intros order g1 g2 root h1 h2 rs Po T1 T2 Tz E.
  exact (copies_keep order (lgr_copy g1) (lgr_copy g2) (option_map lgr_copy root) h1 h2 rs Po (tidy_copy _ T1) (tidy_copy _ T2) (tidy_copies root Tz) E).
Qed.
Lemma copy_expanded : forall g, expanded g -> expanded (lgr_copy g).
Proof. intros g [H1 [H2 H3]]. split; [exact (lgr_reachable_step g LCopy H1)|]. split; assumption. Qed.
Theorem harmonize_again : forall order order' g1 g2 h1 h2 k1 k2 rs qs, rearranges order -> rearranges order' -> tidy g1 -> tidy g2 ->
  symmetric (lg_rep g1) -> transitive (lg_rep g1) -> symmetric (lg_rep g2) -> transitive (lg_rep g2) ->
  harmonize order g1 g2 None = Ok (h1, h2, rs) -> harmonize order' h1 h2 None = Ok (k1, k2, qs) ->
  (forall a, lookup (lg_rep k1) a <> None <-> lookup (lg_rep h1) a <> None) /\ (forall a b, has_target (lg_rep k1) a b <-> has_target (lg_rep h1) a b) /\
  (forall a, lookup (lg_rep k2) a <> None <-> lookup (lg_rep h2) a <> None) /\ (forall a b, has_target (lg_rep k2) a b <-> has_target (lg_rep h2) a b).
Proof.
  intros order order' g1 g2 h1 h2 k1 k2 [r1 r2] qs Po Po' T1 T2 Sa Ta Sb Tb E E'.
  destruct (harmonize_two_ok order (lgr_copy g1) (lgr_copy g2) h1 h2 r1 r2 Po (tidy_copy _ T1) (tidy_copy _ T2) E) as [X1 [X2 [[C1 [C2 _]] _]]].
  destruct (expanded_tidy_free order' (lgr_copy h1) (lgr_copy h2) k1 k2 qs Po' (copy_expanded _ X1) (copy_expanded _ X2) E') as [K1 [K2 _]].
  destruct (completed_again _ _ _ _ _ Sa Ta Sb Tb C1 C2 K1) as [A1 A2]. destruct (completed_again _ _ _ _ _ Sb Tb Sa Ta C2 C1 K2) as [B1 B2]. auto.
Qed.
Theorem harmonize_succeeds : forall order g1 g2 root, rearranges order -> tidy g1 -> tidy g2 -> (forall z, root = Some z -> tidy z /\ plain_variants z) ->
  plain_variants g1 -> plain_variants g2 -> exists p, harmonize order g1 g2 root = Ok p.
Proof.
  intros order g1 g2 root Po T1 T2 Tz P1 P2.
  apply (copies_succeed order (lgr_copy g1) (lgr_copy g2) (option_map lgr_copy root) Po (tidy_copy _ T1) (tidy_copy _ T2)); try reflexivity; [|exact P1|exact P2].
  intros z E. destruct root as [y|]; [|discriminate]. injection E as <-. destruct (Tz y eq_refl) as [H1 H2]. split; [apply tidy_copy; exact H1|]. split; [reflexivity|exact H2].
Qed.
Theorem order_irrelevant : forall o o' g1 g2 h1 h2 k1 k2 rs qs, rearranges o -> rearranges o' -> tidy g1 -> tidy g2 ->
  harmonize o g1 g2 None = Ok (h1, h2, rs) -> harmonize o' g1 g2 None = Ok (k1, k2, qs) ->
  (forall a, lookup (lg_rep h1) a <> None <-> lookup (lg_rep k1) a <> None) /\ (forall a b, has_target (lg_rep h1) a b <-> has_target (lg_rep k1) a b) /\
  (forall a, lookup (lg_rep h2) a <> None <-> lookup (lg_rep k2) a <> None) /\ (forall a b, has_target (lg_rep h2) a b <-> has_target (lg_rep k2) a b).
Proof.
  intros o o' g1 g2 h1 h2 k1 k2 [r1 r2] [q1 q2] P1 P2 T1 T2 E1 E2.
  destruct (harmonize_ok o g1 g2 h1 h2 r1 r2 P1 T1 T2 E1) as [_ [_ [A1 [A2 _]]]]. destruct (harmonize_ok o' g1 g2 k1 k2 q1 q2 P2 T1 T2 E2) as [_ [_ [B1 [B2 _]]]].
  assert (Q : forall r s t u, completed r s t -> completed r s u -> (forall a, lookup t a <> None <-> lookup u a <> None) /\ (forall a b, has_target t a b <-> has_target u a b)).
  { intros r s t u C D. split; [intro a; rewrite (co_entries _ _ _ C), (co_entries _ _ _ D); tauto|]. intros a b. destruct (cps_eq_dec a b) as [E|E].
    - subst b. rewrite (co_itself _ _ _ C), (co_itself _ _ _ D). tauto.
    - rewrite (co_related _ _ _ C a b E), (co_related _ _ _ D a b E). tauto. }
  destruct (Q _ _ _ _ A1 B1). destruct (Q _ _ _ _ A2 B2). auto.
Qed.
