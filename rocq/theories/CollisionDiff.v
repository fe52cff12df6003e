(** Comparison of the variants of labels under two LGRs. *)
From Verif Require Import Base BaseFacts CollisionModel CollisionSpec CollisionProofs CollisionFinal.
Open Scope string_scope.
Open Scope list_scope.

Lemma mapM_ok : forall {A B} (f : A -> res B) l, (forall x, In x l -> exists y, f x = Ok y) -> exists ys, mapM_res f l = Ok ys.
Proof.
  intros A B f. induction l as [|x l IH]; intro H; [exists []; reflexivity|]. destruct (H x (or_introl eq_refl)) as [y Hy].
  destruct IH as [ys Hys]; [intros z Hz; apply H; right; exact Hz|]. exists (y :: ys). cbn [mapM_res]. rewrite Hy. cbn [bind]. rewrite Hys. reflexivity.
Qed.
Lemma mapM_inv : forall {A B} (f : A -> res B) l ys, mapM_res f l = Ok ys -> Forall2 (fun x y => f x = Ok y) l ys.
Proof.
  intros A B f. induction l as [|x l IH]; intros ys H; cbn [mapM_res] in H; [injection H as H; subst; constructor|].
  destruct (f x) as [y|e] eqn:E; [|discriminate]. cbn [bind] in H. destruct (mapM_res f l) as [zs|e] eqn:E2; [|discriminate]. cbn [bind] in H. injection H as H. subst.
  constructor; [exact E|apply IH; reflexivity].
Qed.
Lemma Forall2_In_l : forall {A B} (R : A -> B -> Prop) l ys x, Forall2 R l ys -> In x l -> exists y, In y ys /\ R x y.
Proof. intros A B R l ys x H. induction H as [|a b l ys H1 H2 IH]; intro E; [contradiction|]; destruct E as [E|E]; [subst; exists b; split; [left; reflexivity|exact H1]|]. destruct (IH E) as [y [Y1 Y2]]. exists y. split; [right; exact Y1|exact Y2]. Qed.
Lemma Forall2_In_r : forall {A B} (R : A -> B -> Prop) l ys y, Forall2 R l ys -> In y ys -> exists x, In x l /\ R x y.
Proof. intros A B R l ys y H. induction H as [|a b l ys H1 H2 IH]; intro E; [contradiction|]; destruct E as [E|E]; [subst; exists a; split; [left; reflexivity|exact H1]|]. destruct (IH E) as [x [Y1 Y2]]. exists x. split; [right; exact Y1|exact Y2]. Qed.

Lemma new_variants_In : forall a b e, In e (new_variants a b) <-> In e a /\ ~ In (ce_cp e) (map ce_cp b).
Proof.
  intros a b e. unfold new_variants. rewrite filter_In, negb_true_iff. split; intros [H1 H2]; (split; [exact H1|]).
  - intro H. apply in_map_iff in H. destruct H as [o [E H]]. assert (existsb (fun o => cps_eqb (ce_cp o) (ce_cp e)) b = true); [|congruence].
    apply existsb_exists. exists o. split; [exact H|]. apply cps_eqb_eq. exact E.
  - destruct (existsb (fun o => cps_eqb (ce_cp o) (ce_cp e)) b) eqn:E; [|reflexivity]. exfalso. apply H2. apply existsb_exists in E.
    destruct E as [o [E1 E2]]. apply cps_eqb_eq in E2. rewrite <- E2. apply in_map. exact E1.
Qed.

Section One.
  Variables (l : cps) (es1 es2 : list centry).
  Hypothesis N1 : NoDup (map ce_cp es1).
  Hypothesis N2 : NoDup (map ce_cp es2).
  Let d1 v := disp_in es1 v l.
  Let d2 v := disp_in es2 v l.

  Lemma disp_in_at : forall es e, NoDup (map ce_cp es) -> In e es -> disp_in es (ce_cp e) l = dget cps_eqb l (ce_disp e).
  Proof. intros es e Hn H. unfold disp_in. rewrite (entry_for_In es e Hn H). reflexivity. Qed.
  Lemma pairs_In : forall e1 e2, In (e2, e1) (flat_map (fun e2 => map (fun e1 => (e2, e1)) (filter (fun e1 => cps_eqb (ce_cp e1) (ce_cp e2)) es1)) es2) <->
    In e2 es2 /\ In e1 es1 /\ ce_cp e1 = ce_cp e2.
  Proof.
    intros e1 e2. rewrite in_flat_map. split.
    - intros [x [H1 H2]]. apply in_map_iff in H2. destruct H2 as [y [E H2]]. injection E as E1 E2. subst. apply filter_In in H2. rewrite cps_eqb_eq in H2. tauto.
    - intros [H1 [H2 H3]]. exists e2. split; [exact H1|]. apply in_map_iff. exists e1. split; [reflexivity|]. apply filter_In. rewrite cps_eqb_eq. auto.
  Qed.
  Lemma has_disp_in : forall es e, NoDup (map ce_cp es) -> In e es -> (has_disp l e = true <-> disp_in es (ce_cp e) l <> None).
  Proof. intros es e Hn H. rewrite (disp_in_at es e Hn H). unfold has_disp, dmem. destruct (dget cps_eqb l (ce_disp e)); split; congruence. Qed.
  Lemma disp_member : forall es v, disp_in es v l <> None -> In v (map ce_cp es).
  Proof. intros es v H. apply entry_for_some. unfold disp_in in H. destruct (entry_for es v); congruence. Qed.

  Theorem compare_one_exact : forall c, compare_one l es1 es2 = Ok c ->
    (forall v a b, In (v, b, a) (cg_disp c) <-> d1 v = Some a /\ d2 v = Some b /\ a <> b) /\
    (forall v, In v (cg_added c) <-> d2 v <> None /\ d1 v = None) /\
    (forall v, In v (cg_removed c) <-> d1 v <> None /\ d2 v = None) /\
    NoDup (cg_added c) /\ NoDup (cg_removed c).
  Proof.
    intros c H. unfold compare_one in H.
    match type of H with bind ?m _ = _ => destruct m as [ds|e] eqn:E end; [|discriminate]. cbn [bind] in H.
    destruct (forallb (has_disp l) (new_variants es2 es1)) eqn:Ha; [|discriminate]. destruct (forallb (has_disp l) (new_variants es1 es2)) eqn:Hb; [|discriminate].
    cbn [andb negb] in H. injection H as H. subst c. cbn [cg_disp cg_added cg_removed].
    rewrite forallb_forall in Ha, Hb. apply mapM_inv in E.
    assert (Hboth : forall v, In v (map ce_cp es1) -> In v (map ce_cp es2) -> exists a b, d1 v = Some a /\ d2 v = Some b /\
      (a <> b -> In (v, b, a) (concat ds))).
    { intros v H1 H2. apply in_map_iff in H1, H2. destruct H1 as [e1 [C1 H1]], H2 as [e2 [C2 H2]].
      destruct (Forall2_In_l _ _ _ (e2, e1) E) as [r [R1 R2]]; [apply pairs_In; repeat split; congruence|]. cbn [fst snd] in R2.
      unfold compare_labels in R2. pose proof (disp_in_at es1 e1 N1 H1) as V1. pose proof (disp_in_at es2 e2 N2 H2) as V2. rewrite C1 in V1. rewrite C2 in V2. unfold d1, d2. rewrite V1, V2.
      destruct (dget cps_eqb l (ce_disp e1)) as [a|]; [|discriminate]. destruct (dget cps_eqb l (ce_disp e2)) as [b|]; [|discriminate].
      exists a, b. split; [reflexivity|]. split; [reflexivity|]. intro Hne. cbn [bind] in R2. destruct (ostring_eqb a b) eqn:Eo; [apply ostring_eqb_eq in Eo; contradiction|].
      injection R2 as R2. apply in_concat. exists r. split; [exact R1|]. subst r. left. congruence. }
    assert (Hnew : forall es es' v, NoDup (map ce_cp es) -> In v (map ce_cp (new_variants es es')) <-> In v (map ce_cp es) /\ ~ In v (map ce_cp es')).
    { intros es es' v _. rewrite !in_map_iff. split.
      - intros [e [C Hi]]. apply new_variants_In in Hi. subst v. split; [exists e; tauto|]. rewrite <- in_map_iff. tauto.
      - intros [[e [C Hi]] Hn]. exists e. split; [exact C|]. apply new_variants_In. rewrite in_map_iff. subst v. auto. }
    assert (Hnone : forall es v, ~ In v (map ce_cp es) -> disp_in es v l = None).
    { intros es v Hn. unfold disp_in. apply entry_for_none in Hn. rewrite Hn. reflexivity. }
    split; [|split; [|split; [|split]]].
    - intros v a b. split.
      + intro Hi. apply in_concat in Hi. destruct Hi as [r [R1 R2]]. destruct (Forall2_In_r _ _ _ r E R1) as [[e2 e1] [P1 P2]].
        apply pairs_In in P1. destruct P1 as [P3 [P4 P5]]. cbn [fst snd] in P2. unfold compare_labels in P2.
        destruct (dget cps_eqb l (ce_disp e1)) as [a'|] eqn:G1; [|discriminate]. destruct (dget cps_eqb l (ce_disp e2)) as [b'|] eqn:G2; [|discriminate].
        cbn [bind] in P2. destruct (ostring_eqb a' b') eqn:Eo; injection P2 as P2; subst r; [destruct R2|]. destruct R2 as [R2|[]]. injection R2 as Q1 Q2 Q3. subst.
        pose proof (disp_in_at es1 e1 N1 P4) as V1. pose proof (disp_in_at es2 e2 N2 P3) as V2. rewrite P5 in V1. unfold d1, d2. rewrite V1, V2. split; [exact G1|]. split; [exact G2|].
        intro Hab. subst. assert (ostring_eqb b b = true) by (apply ostring_eqb_eq; reflexivity). congruence.
      + intros [H1 [H2 H3]]. destruct (Hboth v) as [a' [b' [B1 [B2 B3]]]]; [apply disp_member; unfold d1 in H1; congruence|apply disp_member; unfold d2 in H2; congruence|].
        replace a with a' by congruence. replace b with b' by congruence. apply B3. congruence.
    - intro v. rewrite (Hnew es2 es1 v N2). split.
      + intros [H1 H2]. split; [|apply Hnone; exact H2]. assert (Hv : In v (map ce_cp (new_variants es2 es1))) by (apply Hnew; auto).
        apply in_map_iff in Hv. destruct Hv as [e [C Hv]]. pose proof (Ha e Hv) as Hd. apply new_variants_In in Hv. unfold d2. rewrite <- C.
        apply (has_disp_in es2 e N2); tauto.
      + intros [H1 H2]. pose proof (disp_member _ _ H1) as Hm. split; [exact Hm|]. intro Hm1. destruct (Hboth v Hm1 Hm) as [a [b [B1 _]]]. congruence.
    - intro v. rewrite (Hnew es1 es2 v N1). split.
      + intros [H1 H2]. split; [|apply Hnone; exact H2]. assert (Hv : In v (map ce_cp (new_variants es1 es2))) by (apply Hnew; auto).
        apply in_map_iff in Hv. destruct Hv as [e [C Hv]]. pose proof (Hb e Hv) as Hd. apply new_variants_In in Hv. unfold d1. rewrite <- C.
        apply (has_disp_in es1 e N1); tauto.
      + intros [H1 H2]. pose proof (disp_member _ _ H1) as Hm. split; [exact Hm|]. intro Hm1. destruct (Hboth v Hm Hm1) as [a [b [_ [B2 _]]]]. congruence.
    - unfold new_variants. clear -N2. induction es2 as [|x xs IH]; [constructor|]. cbn [map] in N2. inversion N2 as [|? ? M1 M2]; subst. cbn [filter].
      destruct (negb _); [|apply IH; exact M2]. cbn [map]. constructor; [|apply IH; exact M2]. intro Hi. apply M1. apply in_map_iff in Hi.
      destruct Hi as [e [Ee Hi]]. rewrite <- Ee. apply in_map. apply filter_In in Hi. tauto.
    - unfold new_variants. clear -N1. induction es1 as [|x xs IH]; [constructor|]. cbn [map] in N1. inversion N1 as [|? ? M1 M2]; subst. cbn [filter].
      destruct (negb _); [|apply IH; exact M2]. cbn [map]. constructor; [|apply IH; exact M2]. intro Hi. apply M1. apply in_map_iff in Hi.
      destruct Hi as [e [Ee Hi]]. rewrite <- Ee. apply in_map. apply filter_In in Hi. tauto.
  Qed.
  Lemma compare_one_total : (forall v, In v (map ce_cp es1) -> d1 v <> None) -> (forall v, In v (map ce_cp es2) -> d2 v <> None) -> exists c, compare_one l es1 es2 = Ok c.
  Proof.
    intros H1 H2. unfold compare_one.
    destruct (mapM_ok (fun q => bind (compare_labels l (snd q) (fst q)) (fun r => Ok (match r with Some (d2, d1) => [(ce_cp (fst q), d2, d1)] | None => [] end)))
      (flat_map (fun e2 => map (fun e1 => (e2, e1)) (filter (fun e1 => cps_eqb (ce_cp e1) (ce_cp e2)) es1)) es2)) as [ds Hds].
    - intros [e2 e1] Hp. apply pairs_In in Hp. destruct Hp as [P1 [P2 P3]]. cbn [fst snd]. unfold compare_labels.
      pose proof (H1 (ce_cp e1) (in_map _ _ _ P2)) as D1. pose proof (H2 (ce_cp e2) (in_map _ _ _ P1)) as D2. unfold d1, d2 in D1, D2.
      rewrite (disp_in_at es1 e1 N1 P2) in D1. rewrite (disp_in_at es2 e2 N2 P1) in D2.
      destruct (dget cps_eqb l (ce_disp e1)); [|congruence]. destruct (dget cps_eqb l (ce_disp e2)); [|congruence]. cbn [bind]. eexists. reflexivity.
    - rewrite Hds. cbn [bind]. assert (Ha : forallb (has_disp l) (new_variants es2 es1) = true).
      { apply forallb_forall. intros e He. apply new_variants_In in He. apply (has_disp_in es2 e N2); [tauto|]. apply H2. apply in_map. tauto. }
      assert (Hb : forallb (has_disp l) (new_variants es1 es2) = true).
      { apply forallb_forall. intros e He. apply new_variants_In in He. apply (has_disp_in es1 e N1); [tauto|]. apply H1. apply in_map. tauto. }
      rewrite Ha, Hb. cbn. eexists. reflexivity.
  Qed.
End One.

(** The table kept for a comparison. *)
Section Kept.
  Variable index : cps -> res cps.
  Variable listing : cps -> list cps -> list (cps * option string) * res unit.
  Variable labels : list cps.
  Hypothesis Hlab : NoDup labels.
  Hypothesis Hself : shows_itself listing.

  Lemma kept_entry : forall quiet t m, generate_indexes index listing labels [] true quiet [] = Ok (t, m) -> (forall l ws, NoDup (map fst (fst (listing l ws)))) ->
    forall l i, In l labels -> index l = Ok i ->
    exists es, dget cps_eqb i t = Some es /\ NoDup (map ce_cp es) /\ (forall v, disp_in es v l = dget cps_eqb v (fst (listing l []))) /\
      (forall v, In v (map ce_cp es) -> exists q, In q labels /\ index q = Ok i /\ In v (map fst (fst (listing q [])))).
  Proof.
    intros quiet t m H Hn l i Hl Hi. destruct (generate_inv index listing labels [] Hlab (NoDup_nil _) true quiet t m Hn H) as [_ [Hw [_ [_ Hr]]]].
    set (g := group (items index labels []) i) in *.
    assert (Hg : forall x, In x (map ce_cp g) <-> In x labels /\ index x = Ok i).
    { intro x. unfold g. rewrite (group_cps index listing labels []). unfold has_index, subject. cbn. tauto. }
    assert (Hlg : In l (map ce_cp g)) by (apply Hg; auto).
    specialize (Hr i). fold g in Hr. destruct g as [|x g'] eqn:Eg; [contradiction|]. rewrite <- Eg in *.
    unfold outcome_for in Hr. cbn [negb andb] in Hr. rewrite andb_false_r in Hr. destruct Hr as [es [E1 E2]]. cbn [wl] in E1.
    assert (Ng : NoDup (map ce_cp g)) by (apply (group_NoDup index listing labels [] Hlab (NoDup_nil _))).
    assert (Hwl : forall p, In p g -> well_listed listing [] (ce_cp p)).
    { intros p Hp. apply (Hw i); [reflexivity|]. split; [left|]; apply Hg; apply in_map; exact Hp. }
    destruct (expand_primaries_ok listing [] g g Ng Hwl) as [es' [F1 [F2 [F3 [_ [_ F6]]]]]]. rewrite E1 in F1. injection F1 as F1. subst es'.
    exists es. split; [exact E2|]. split; [exact F2|].
    assert (Hme : forall q, In q labels -> index q = Ok i -> In q (map fst (fst (listing q [])))).
    { intros q Hq1 Hq2. apply Hself. apply (Hw i); [reflexivity|]. split; [left; exact Hq1|exact Hq2]. }
    split.
    - intro v. rewrite F6 by exact Hlg. destruct (dget cps_eqb v (fst (listing l []))) as [d|] eqn:Ed; [reflexivity|].
      destruct (cps_eq_dec v l) as [Ev|Ev].
      + subst v. exfalso. apply (dget_None _ cps_eqb_eq) in Ed. apply Ed. apply (Hme l Hl Hi).
      + destruct (in_dec cps_eq_dec v (map ce_cp g)) as [Hv|Hv].
        * assert (Hvi : has_index index labels [] i v) by (apply Hg in Hv; split; [left|]; tauto).
          destruct (group_cat index listing labels [] i v Hvi) as [_ [_ G]]. apply G. congruence.
        * unfold disp_in. apply entry_for_none in Hv. rewrite Hv. reflexivity.
    - intros v Hv. apply F3 in Hv. destruct Hv as [Hv|[p [Hp Hv]]].
      + apply Hg in Hv. exists v. split; [tauto|]. split; [tauto|]. apply Hme; tauto.
      + pose proof (proj1 (Hg (ce_cp p)) (in_map _ _ _ Hp)). exists (ce_cp p). tauto.
  Qed.

  (** The dump of a table succeeds when, and only when, labels with the same
      index have the same variants. *)
  Theorem full_dump_iff : forall quiet t m, generate_indexes index listing labels [] true quiet [] = Ok (t, m) -> (forall l ws, NoDup (map fst (fst (listing l ws)))) ->
    ((exists out, full_dump t = Ok out) <->
     forall l m i v, In l labels -> In m labels -> index l = Ok i -> index m = Ok i -> In v (map fst (fst (listing l []))) -> In v (map fst (fst (listing m [])))).
  Proof.
    intros quiet t m H Hn. destruct (generate_inv index listing labels [] Hlab (NoDup_nil _) true quiet t m Hn H) as [_ [Hw [_ [Nt Hr]]]].
    assert (Hcat : forall i es, dget cps_eqb i t = Some es -> NoDup (map ce_cp es) /\
      (forall e, In e es -> (ce_cat e = CPrimary <-> In (ce_cp e) labels /\ index (ce_cp e) = Ok i)) /\
      (forall v, In v (map ce_cp es) <-> (In v labels /\ index v = Ok i) \/ exists q, In q labels /\ index q = Ok i /\ In v (map fst (fst (listing q []))))).
    { intros i es E. specialize (Hr i). set (g := group (items index labels []) i) in *.
      assert (Hg : forall x, In x (map ce_cp g) <-> In x labels /\ index x = Ok i).
      { intro x. unfold g. rewrite (group_cps index listing labels []). unfold has_index, subject. cbn. tauto. }
      destruct g as [|x g'] eqn:Eg; [congruence|]. rewrite <- Eg in *.
      unfold outcome_for in Hr. cbn [negb andb] in Hr. rewrite andb_false_r in Hr. destruct Hr as [es0 [E1 E2]]. cbn [wl] in E1.
      assert (es0 = es) by congruence. subst es0.
      assert (Ng : NoDup (map ce_cp g)) by (apply (group_NoDup index listing labels [] Hlab (NoDup_nil _))).
      assert (Hwl : forall p, In p g -> well_listed listing [] (ce_cp p)).
      { intros p Hp. apply (Hw i); [reflexivity|]. split; [left|]; apply Hg; apply in_map; exact Hp. }
      destruct (expand_primaries_ok listing [] g g Ng Hwl) as [es' [F1 [F2 [F3 [F4 _]]]]]. rewrite E1 in F1. injection F1 as F1. subst es'.
      split; [exact F2|]. split.
      - intros e He. specialize (F4 (ce_cp e)). unfold cat_in in F4 at 1. rewrite (entry_for_In es e F2 He) in F4. rewrite F4, <- Hg.
        destruct (in_dec cps_eq_dec (ce_cp e) (map ce_cp g)) as [Hi|Hi].
        + split; [intros _; exact Hi|intros _]. assert (Hv : has_index index labels [] i (ce_cp e)) by (apply Hg in Hi; split; [left|]; tauto).
          destruct (group_cat index listing labels [] i _ Hv) as [[[_ G]|[_ [[] _]]] _]. exact G.
        + unfold cat_in. pose proof Hi as Hi'. apply entry_for_none in Hi'. rewrite Hi'. split; [discriminate|contradiction].
      - intro v. rewrite F3, Hg. split; (intros [Hv|[p Hv]]; [left; exact Hv|right]).
        + pose proof (proj1 (Hg (ce_cp p)) (in_map _ _ _ (proj1 Hv))). exists (ce_cp p). tauto.
        + assert (Hp : In p (map ce_cp g)) by (apply Hg; tauto). apply in_map_iff in Hp. destruct Hp as [e [Ee Hp]]. exists e. rewrite Ee. tauto. }
    assert (Hkey : forall e es, In es (dvals t) -> In e es -> ce_cat e = CPrimary -> exists i, dget cps_eqb i t = Some es /\ In (ce_cp e) labels /\ index (ce_cp e) = Ok i).
    { intros e es He Hi Hc. unfold dvals in He. apply in_map_iff in He. destruct He as [[i es'] [E He]]. cbn in E. subst es'.
      apply (In_dget _ cps_eqb_eq) in He; [|exact Nt]. exists i. split; [exact He|]. apply (proj1 (proj2 (Hcat i es He)) e Hi). exact Hc. }
    split.
    - intros [out Ho] l k i v Hl Hk Il Ik Hv. unfold full_dump in Ho. apply mapM_inv in Ho.
      destruct (kept_entry quiet t m H Hn k i Hk Ik) as [es [K1 [K2 [K3 K4]]]]. destruct (Hcat i es K1) as [_ [C1 C2]].
      assert (Hin : In k (map ce_cp es)) by (apply C2; left; auto). apply in_map_iff in Hin. destruct Hin as [ek [Ek Hek]].
      destruct (Forall2_In_l _ _ _ (es, k) Ho) as [r [_ R]].
      { apply in_flat_map. exists es. split; [unfold dvals; apply in_map_iff; exists (i, es); split; [reflexivity|apply (dget_In _ cps_eqb_eq); exact K1]|].
        apply in_map_iff. exists ek. split; [congruence|]. apply filter_In. split; [exact Hek|]. rewrite (proj2 (C1 ek Hek)); [reflexivity|]. rewrite Ek. auto. }
      cbn [fst snd] in R. unfold dump_primary in R. apply mapM_inv in R. assert (Hvin : In v (map ce_cp es)) by (apply C2; right; exists l; auto).
      apply in_map_iff in Hvin. destruct Hvin as [ev [Ev Hev]]. destruct (Forall2_In_l _ _ _ ev R Hev) as [y [_ Y]].
      destruct (dget cps_eqb k (ce_disp ev)) as [d|] eqn:Ed; [|discriminate]. pose proof (disp_in_at k es ev K2 Hev) as D. rewrite Ed, Ev, K3 in D.
      apply (dget_In _ cps_eqb_eq) in D. change v with (fst (v, d)). apply in_map. exact D.
    - intro Hm. unfold full_dump. apply mapM_ok. intros [es p] Hp. cbn [fst snd]. apply in_flat_map in Hp. destruct Hp as [es' [P1 P2]].
      apply in_map_iff in P2. destruct P2 as [e [E P2]]. injection E as E1 E2. subst es' p. apply filter_In in P2. destruct P2 as [P2 P3].
      assert (Hc : ce_cat e = CPrimary) by (destruct (ce_cat e); congruence). destruct (Hkey e es P1 P2 Hc) as [i [I1 [I2 I3]]].
      destruct (kept_entry quiet t m H Hn (ce_cp e) i I2 I3) as [es' [K1 [K2 [K3 K4]]]]. assert (es' = es) by congruence. subst es'.
      unfold dump_primary. apply mapM_ok. intros x Hx. destruct (K4 (ce_cp x) (in_map _ _ _ Hx)) as [q [Q1 [Q2 Q3]]].
      pose proof (Hm q (ce_cp e) i (ce_cp x) Q1 I2 Q2 I3 Q3) as Hl. pose proof (disp_in_at (ce_cp e) es x K2 Hx) as D. rewrite K3 in D.
      destruct (dget cps_eqb (ce_cp x) (fst (listing (ce_cp e) []))) as [d|] eqn:Ed; [rewrite <- D; eexists; reflexivity|].
      exfalso. apply (dget_None _ cps_eqb_eq) in Ed. apply Ed. exact Hl.
  Qed.
End Kept.

Section Diff.
  Variables (index1 index2 : cps -> res cps) (listing1 listing2 : cps -> list cps -> list (cps * option string) * res unit).
  Variables (labels : list cps) (quiet : bool).
  Hypothesis Hlab : NoDup labels.
  Hypothesis Hself1 : shows_itself listing1.
  Hypothesis Hself2 : shows_itself listing2.
  Hypothesis Hn1 : forall l ws, NoDup (map fst (fst (listing1 l ws))).
  Hypothesis Hn2 : forall l ws, NoDup (map fst (fst (listing2 l ws))).

  Lemma dget_listed : forall (listing : cps -> list cps -> list (cps * option string) * res unit) l v d, NoDup (map fst (fst (listing l []))) ->
    (dget cps_eqb v (fst (listing l [])) = Some d <-> listed_as listing [] l v d).
  Proof. intros listing l v d H. split; [apply (dget_In _ cps_eqb_eq)|apply (In_dget _ cps_eqb_eq); exact H]. Qed.
  Lemma dget_unlisted : forall (listing : cps -> list cps -> list (cps * option string) * res unit) l v,
    (dget cps_eqb v (fst (listing l [])) <> None <-> exists d, listed_as listing [] l v d).
  Proof.
    intros listing l v. split.
    - intro H. destruct (dget cps_eqb v (fst (listing l []))) as [d|] eqn:E; [|congruence]. exists d. apply (dget_In _ cps_eqb_eq). exact E.
    - intros [d H] E. apply (dget_None _ cps_eqb_eq) in E. apply E. change v with (fst (v, d)). apply in_map. exact H.
  Qed.

  Theorem diff_exact : forall out, diff_labels index1 index2 listing1 listing2 labels quiet = Ok out ->
    (forall l, In l (map fst out) <-> In l labels /\ (exists i, index1 l = Ok i) /\ (exists i, index2 l = Ok i)) /\
    forall l c, In (l, c) out ->
      (forall v b a, In (v, b, a) (cg_disp c) <-> listed_as listing1 [] l v a /\ listed_as listing2 [] l v b /\ a <> b) /\
      (forall v, In v (cg_added c) <-> (exists d, listed_as listing2 [] l v d) /\ ~ exists d, listed_as listing1 [] l v d) /\
      (forall v, In v (cg_removed c) <-> (exists d, listed_as listing1 [] l v d) /\ ~ exists d, listed_as listing2 [] l v d) /\
      NoDup (cg_added c) /\ NoDup (cg_removed c).
  Proof.
    intros out H. unfold diff_labels in H.
    destruct (generate_indexes index1 listing1 labels [] true quiet []) as [[t1 m1]|e] eqn:E1; [|discriminate]. cbn [bind fst] in H.
    destruct (generate_indexes index2 listing2 labels [] true quiet []) as [[t2 m2]|e] eqn:E2; [|discriminate]. cbn [bind fst] in H.
    match type of H with bind ?m _ = _ => destruct m as [q|e] eqn:E3 end; [|discriminate]. cbn [bind] in H. apply mapM_inv in E3, H.
    assert (Hq : forall l i1 i2, In (l, i1, i2) (concat q) <-> In l labels /\ index1 l = Ok i1 /\ index2 l = Ok i2).
    { intros l i1 i2. rewrite in_concat. split.
      - intros [r [R1 R2]]. destruct (Forall2_In_r _ _ _ r E3 R1) as [x [X1 X2]].
        destruct (index1 x) as [j1|e] eqn:J1; [|destruct e; try discriminate; injection X2 as X2; subst r; destruct R2].
        destruct (index2 x) as [j2|e] eqn:J2; [|destruct e; try discriminate; injection X2 as X2; subst r; destruct R2].
        injection X2 as X2. subst r. destruct R2 as [R2|[]]. injection R2 as Q1 Q2 Q3. subst. auto.
      - intros [H1 [H2 H3]]. destruct (Forall2_In_l _ _ _ l E3 H1) as [r [R1 R2]]. rewrite H2, H3 in R2. injection R2 as R2. exists r. split; [exact R1|]. subst. left. reflexivity. }
    split.
    - intro l. split.
      + intro Hi. apply in_map_iff in Hi. destruct Hi as [[l' c] [El Hi]]. cbn in El. subst l'. destruct (Forall2_In_r _ _ _ _ H Hi) as [[[x i1] i2] [X1 X2]].
        apply Hq in X1. destruct (dget cps_eqb i1 t1); [|discriminate]. destruct (dget cps_eqb i2 t2); [|discriminate].
        destruct (compare_one x l0 l1); [|discriminate]. cbn [bind] in X2. injection X2 as X2 X3. subst. split; [tauto|]. split; eexists; apply X1.
      + intros [H1 [[i1 H2] [i2 H3]]]. destruct (Forall2_In_l _ _ _ (l, i1, i2) H) as [[l' c] [Y1 Y2]]; [apply Hq; auto|].
        destruct (dget cps_eqb i1 t1); [|discriminate]. destruct (dget cps_eqb i2 t2); [|discriminate].
        destruct (compare_one l l0 l1); [|discriminate]. cbn [bind] in Y2. injection Y2 as Y2 Y3. subst. apply in_map_iff. eexists. split; [|exact Y1]. reflexivity.
    - intros l c Hi. destruct (Forall2_In_r _ _ _ _ H Hi) as [[[x i1] i2] [X1 X2]]. apply Hq in X1. destruct X1 as [X3 [X4 X5]].
      destruct (dget cps_eqb i1 t1) as [es1|] eqn:G1; [|discriminate]. destruct (dget cps_eqb i2 t2) as [es2|] eqn:G2; [|discriminate].
      destruct (compare_one x es1 es2) as [c'|] eqn:Ec; [|discriminate]. cbn [bind] in X2. injection X2 as X6 X7. subst x c'.
      destruct (kept_entry index1 listing1 labels Hlab Hself1 quiet t1 m1 E1 Hn1 l i1 X3 X4) as [es1' [K1 [K2 [K3 _]]]].
      destruct (kept_entry index2 listing2 labels Hlab Hself2 quiet t2 m2 E2 Hn2 l i2 X3 X5) as [es2' [K4 [K5 [K6 _]]]].
      assert (es1' = es1) by congruence. assert (es2' = es2) by congruence. subst es1' es2'.
      destruct (compare_one_exact l es1 es2 K2 K5 c Ec) as [C1 [C2 [C3 C4]]]. split; [|split; [|split]].
      + intros v b a. rewrite C1, K3, K6, !dget_listed by auto. tauto.
      + intro v. rewrite C2, K3, K6, dget_unlisted. destruct (dget cps_eqb v (fst (listing1 l []))) eqn:Ed.
        * split; intros [_ Hx]; [discriminate|]. exfalso. apply Hx. apply dget_unlisted. congruence.
        * split; intros [Hx _]; (split; [exact Hx|]); [|reflexivity]. rewrite <- dget_unlisted. congruence.
      + intro v. rewrite C3, K3, K6, dget_unlisted. destruct (dget cps_eqb v (fst (listing2 l []))) eqn:Ed.
        * split; intros [_ Hx]; [discriminate|]. exfalso. apply Hx. apply dget_unlisted. congruence.
        * split; intros [Hx _]; (split; [exact Hx|]); [|reflexivity]. rewrite <- dget_unlisted. congruence.
      + exact C4.
  Qed.

  (** It does not fail when labels with the same index have the same variants. *)
  Theorem diff_total :
    (forall l, In l labels -> settled index1 l /\ settled index2 l) ->
    (forall l, In l labels -> snd (listing1 l []) = Ok tt /\ snd (listing2 l []) = Ok tt) ->
    (forall l m i v, In l labels -> In m labels -> index1 l = Ok i -> index1 m = Ok i -> In v (map fst (fst (listing1 l []))) -> In v (map fst (fst (listing1 m [])))) ->
    (forall l m i v, In l labels -> In m labels -> index2 l = Ok i -> index2 m = Ok i -> In v (map fst (fst (listing2 l []))) -> In v (map fst (fst (listing2 m [])))) ->
    exists out, diff_labels index1 index2 listing1 listing2 labels quiet = Ok out.
  Proof.
    intros Hs Hl Hc1 Hc2. unfold diff_labels.
    destruct (generate_total index1 listing1 labels [] Hlab (NoDup_nil _) true quiet) as [t1 [E1 _]]; [intros l [H|[]]; apply Hs; exact H| |].
    { intros i p _ [[H|[]] _]. split; [apply Hl; exact H|apply Hn1]. }
    destruct (generate_total index2 listing2 labels [] Hlab (NoDup_nil _) true quiet) as [t2 [E2 _]]; [intros l [H|[]]; apply Hs; exact H| |].
    { intros i p _ [[H|[]] _]. split; [apply Hl; exact H|apply Hn2]. }
    rewrite E1, E2. cbn [bind fst].
    match goal with |- exists out, bind ?m _ = _ => assert (Hq : exists q, m = Ok q) end.
    { apply mapM_ok. intros l Hi. destruct (Hs l Hi) as [[[i1 H1]|[x1 H1]] [[i2 H2]|[x2 H2]]]; rewrite H1, ?H2; eexists; reflexivity. }
    destruct Hq as [q Hq]. rewrite Hq. cbn [bind]. apply mapM_inv in Hq. apply mapM_ok. intros [[l i1] i2] Hi.
    apply in_concat in Hi. destruct Hi as [r [R1 R2]]. destruct (Forall2_In_r _ _ _ r Hq R1) as [x [X1 X2]].
    destruct (index1 x) as [j1|e] eqn:J1; [|destruct e; try discriminate; injection X2 as X2; subst r; destruct R2].
    destruct (index2 x) as [j2|e] eqn:J2; [|destruct e; try discriminate; injection X2 as X2; subst r; destruct R2].
    injection X2 as X2. subst r. destruct R2 as [R2|[]]. injection R2 as Q1 Q2 Q3. subst.
    destruct (kept_entry index1 listing1 labels Hlab Hself1 quiet t1 _ E1 Hn1 l i1 X1 J1) as [es1 [K1 [K2 [K3 K3']]]].
    destruct (kept_entry index2 listing2 labels Hlab Hself2 quiet t2 _ E2 Hn2 l i2 X1 J2) as [es2 [K4 [K5 [K6 K6']]]].
    rewrite K1, K4. destruct (compare_one_total l es1 es2 K2 K5) as [c Hc].
    - intros v Hv. rewrite K3. destruct (K3' v Hv) as [p [P1 [P2 P3]]]. intro Hno. apply (dget_None _ cps_eqb_eq) in Hno. apply Hno. apply (Hc1 p l i1 v); assumption.
    - intros v Hv. rewrite K6. destruct (K6' v Hv) as [p [P1 [P2 P3]]]. intro Hno. apply (dget_None _ cps_eqb_eq) in Hno. apply Hno. apply (Hc2 p l i2 v); assumption.
    - rewrite Hc. eexists. reflexivity.
  Qed.
End Diff.
