From Coq Require Import Permutation.
From Verif Require Import Base BaseFacts CollisionModel CollisionSpec CollisionProofs.
Open Scope string_scope.
Open Scope list_scope.

Section Gen.
  Variable index : cps -> res cps.
  Variable listing : cps -> list cps -> list (cps * option string) * res unit.
  Variables labels tlds : list cps.
  Hypothesis Hlab : NoDup labels.
  Hypothesis Htld : NoDup tlds.
  Let others := filter (fun l => negb (memb cps_eqb l labels)) tlds.
  Definition items : list item := indexed index CPrimary labels ++ indexed index CTld others.

  Lemma others_In : forall l, In l others <-> In l tlds /\ ~ In l labels.
  Proof. intro l. unfold others. rewrite filter_In, negb_true_iff, (memb_false _ _ cps_eqb_eq). tauto. Qed.
  Lemma items_In : forall l c i, In (l, c, i) items <-> kind_of_subject labels tlds l c /\ index l = Ok i.
  Proof.
    intros l c i. unfold items, kind_of_subject. rewrite in_app_iff, !indexed_In, others_In. tauto.
  Qed.
  Lemma group_cps : forall i l, In l (map ce_cp (group items i)) <-> has_index index labels tlds i l.
  Proof.
    intros i l. unfold group, has_index, subject. rewrite map_map, in_map_iff. split.
    - intros [[[x c] j] [E H]]. cbn in E. subst x. apply filter_In in H. destruct H as [H1 H2]. cbn in H2. apply cps_eqb_eq in H2. subst j.
      apply items_In in H1. unfold kind_of_subject in H1. tauto.
    - intros [H1 H2]. assert (exists c, kind_of_subject labels tlds l c) as [c Hc].
      { unfold kind_of_subject. destruct (in_dec cps_eq_dec l labels); [exists CPrimary|exists CTld]; tauto. }
      exists (l, c, i). split; [reflexivity|]. apply filter_In. split; [apply items_In; auto|]. cbn. apply cps_eqb_refl.
  Qed.
  Lemma indexed_labels_NoDup : forall cat ls, NoDup ls -> NoDup (map it_label (indexed index cat ls)).
  Proof.
    intros cat. induction ls as [|l ls IH]; intro H; [constructor|]. inversion H as [|? ? H1 H2]; subst. unfold indexed. cbn [flat_map].
    destruct (index l) as [i|e]; [|apply IH; exact H2]. cbn [app map]. constructor; [|apply IH; exact H2].
    intro Hi. apply in_map_iff in Hi. destruct Hi as [[[x c] j] [E Hx]]. cbn in E. subst x. apply indexed_In in Hx. tauto.
  Qed.
  Lemma items_NoDup : NoDup (map it_label items).
  Proof.
    unfold items. rewrite map_app. apply NoDup_app_iff. split; [apply indexed_labels_NoDup; exact Hlab|].
    split; [apply indexed_labels_NoDup; apply NoDup_filter; exact Htld|].
    intros x H1 H2. apply in_map_iff in H1, H2. destruct H1 as [[[a c] i] [E1 H1]], H2 as [[[b c'] j] [E2 H2]]. cbn in E1, E2. subst a b.
    apply indexed_In in H1, H2. rewrite others_In in H2. tauto.
  Qed.
  Lemma group_NoDup : forall i, NoDup (map ce_cp (group items i)).
  Proof.
    intro i. unfold group. rewrite map_map. change (NoDup (map it_label (filter (fun x => cps_eqb (it_index x) i) items))).
    pose proof items_NoDup as H. induction items as [|x xs IH]; [constructor|]. cbn [map] in H. inversion H as [|? ? H1 H2]; subst.
    cbn [filter]. destruct (cps_eqb (it_index x) i); [|apply IH; exact H2]. cbn [map]. constructor; [|apply IH; exact H2].
    intro Hi. apply H1. apply in_map_iff in Hi. destruct Hi as [y [E Hy]]. apply filter_In in Hy. rewrite <- E. apply in_map. tauto.
  Qed.
  Lemma group_cat : forall i l, has_index index labels tlds i l -> kind_of_subject labels tlds l (cat_in (group items i) l) /\
    disp_in (group items i) l l = Some (Some "-") /\ forall q, q <> l -> disp_in (group items i) l q = None.
  Proof.
    intros i l H. apply group_cps in H. apply entry_for_some in H. unfold cat_in, disp_in. destruct (entry_for (group items i) l) as [e|] eqn:E; [|congruence].
    apply entry_for_cp in E. destruct E as [E1 E2]. unfold group in E1. apply in_map_iff in E1. destruct E1 as [[[x c] j] [F1 F2]].
    apply filter_In in F2. destruct F2 as [F2 _]. apply items_In in F2. subst e. cbn in E2. subst x. cbn. split; [tauto|]. split.
    - rewrite cps_eqb_refl. reflexivity.
    - intros q Hq. destruct (cps_eqb q l) eqn:E; [apply cps_eqb_eq in E; contradiction|reflexivity].
  Qed.

  Definition required (keep quiet : bool) (i : cps) : Prop := keep || (negb quiet && Nat.leb 2 (length (group items i))) = true.

  Lemma grouped_In : forall t xs i ps, grouped t xs -> In (i, ps) t -> ps = group xs i /\ dget cps_eqb i t = Some ps.
  Proof.
    intros t xs i ps [G1 G2] H. assert (E : dget cps_eqb i t = Some ps) by (apply (In_dget _ cps_eqb_eq); auto).
    split; [|exact E]. rewrite G2 in E. destruct (group xs i); [discriminate|]. cbn in E. congruence.
  Qed.
  Definition result_for (keep quiet : bool) (t : ctable) : Prop :=
    NoDup (dkeys t) /\ forall i, match group items i with
                                 | [] => dget cps_eqb i t = None
                                 | _ => outcome_for listing keep quiet (group items i) (dget cps_eqb i t)
                                 end.

  Theorem generate_total : forall keep quiet, (forall l, subject labels tlds l -> settled index l) ->
    (forall i p, required keep quiet i -> has_index index labels tlds i p -> well_listed listing (wl keep (group items i)) p) ->
    exists t, generate_indexes index listing labels tlds keep quiet [] = Ok (t, absent index labels) /\ result_for keep quiet t.
  Proof.
    intros keep quiet Hs Hw. unfold generate_indexes.
    destruct (add_labels_ok index false labels [] [] [] grouped_nil) as [t1 [E1 G1]]; [intros l Hl; apply Hs; left; exact Hl|].
    rewrite E1. cbn [app add_cached] in *. destruct (add_labels_ok index true others t1 (absent index labels) _ G1) as [t3 [E3 G3]].
    { intros l Hl. apply Hs. right. apply others_In in Hl. tauto. }
    fold others. rewrite E3, app_nil_r. change (grouped t3 items) in G3.
    destruct (expand_indexes_ok listing keep quiet t3 t3 (proj1 G3) (proj1 G3)) as [t4 [E4 [N4 [A1 A2]]]].
    - intros i ps H. apply (grouped_In _ _ _ _ G3 H).
    - intros i ps H Hr. destruct (grouped_In _ _ _ _ G3 H) as [E _]. subst ps. split; [apply group_NoDup|].
      intros p Hp. apply Hw; [exact Hr|]. apply group_cps. apply in_map. exact Hp.
    - rewrite E4. exists t4. split; [reflexivity|]. split; [exact N4|]. intro i. destruct (group items i) as [|e es] eqn:Eg.
      + rewrite A1; [rewrite (proj2 G3), Eg; reflexivity|]. apply (dget_None _ cps_eqb_eq). rewrite (proj2 G3), Eg. reflexivity.
      + apply A2. apply (dget_In _ cps_eqb_eq). rewrite (proj2 G3), Eg. reflexivity.
  Qed.
  Theorem generate_inv : forall keep quiet t missing, (forall l ws, NoDup (map fst (fst (listing l ws)))) ->
    generate_indexes index listing labels tlds keep quiet [] = Ok (t, missing) ->
    (forall l, subject labels tlds l -> settled index l) /\
    (forall i p, required keep quiet i -> has_index index labels tlds i p -> well_listed listing (wl keep (group items i)) p) /\
    missing = absent index labels /\ result_for keep quiet t.
  Proof.
    intros keep quiet t missing Hn H. pose proof H as H0. unfold generate_indexes in H.
    destruct (add_labels index false [] [] labels) as [[t1 m1] [[]|e]] eqn:E1; [|discriminate]. cbn [add_cached] in H. fold others in H.
    destruct (add_labels index true t1 m1 others) as [[t3 m3] [[]|e]] eqn:E3; [|discriminate].
    assert (Hs : forall l, subject labels tlds l -> settled index l).
    { intros l Hl. destruct (in_dec cps_eq_dec l labels) as [Hi|Hi]; [eapply add_labels_settled; [exact E1|exact Hi]|].
      destruct Hl as [Hl|Hl]; [contradiction|]. eapply add_labels_settled; [exact E3|]. apply others_In. auto. }
    assert (G3 : grouped t3 items).
    { destruct (add_labels_ok index false labels [] [] [] grouped_nil) as [t1' [F1 G1]]; [intros l Hl; apply Hs; left; exact Hl|].
      rewrite E1 in F1. injection F1 as F1 F2. subst t1' m1. destruct (add_labels_ok index true others t1 (absent index labels) _ G1) as [t3' [F3 G3]].
      { intros l Hl. apply Hs. right. apply others_In in Hl. tauto. }
      cbn [app] in E3. rewrite E3 in F3. injection F3 as F3 _. subst t3'. exact G3. }
    destruct (expand_indexes listing keep quiet t3 t3) as [t4 [[]|e]] eqn:E4; [|discriminate].
    assert (Hw : forall i p, required keep quiet i -> has_index index labels tlds i p -> well_listed listing (wl keep (group items i)) p).
    { intros i p Hr Hp. split; [|apply Hn]. apply group_cps in Hp. apply in_map_iff in Hp. destruct Hp as [e [Ee Hp]]. subst p.
      apply (expand_indexes_listed listing keep quiet t3 t3 t4 (proj1 G3) (proj1 G3)) with (i := i); [|exact E4| |exact Hr|exact Hp].
      - intros j ps Hj. apply (grouped_In _ _ _ _ G3 Hj).
      - apply (dget_In _ cps_eqb_eq). rewrite (proj2 G3). destruct (group items i); [contradiction|reflexivity]. }
    split; [exact Hs|]. split; [exact Hw|]. destruct (generate_total keep quiet Hs Hw) as [t' [F1 F2]]. rewrite H0 in F1. injection F1 as F1 F2'. subst. auto.
  Qed.

  Lemma two_members : forall i, (2 <= length (group items i))%nat <-> exists a b, a <> b /\ has_index index labels tlds i a /\ has_index index labels tlds i b.
  Proof.
    intro i. pose proof (group_NoDup i) as Hn. split.
    - intro H. destruct (group items i) as [|x [|y es]] eqn:E; cbn [length] in H; try lia. exists (ce_cp x), (ce_cp y). split.
      + cbn [map] in Hn. inversion Hn as [|? ? N1 N2]; subst. intro F. apply N1. left. symmetry. exact F.
      + rewrite <- !group_cps, E. cbn. auto.
    - intros [a [b [Hne [Ha Hb]]]]. rewrite <- group_cps in Ha, Hb. destruct (group items i) as [|x [|y es]]; cbn in *; [contradiction| |lia].
      exfalso. apply Hne. intuition congruence.
  Qed.

  (** The table: exactly the shared indexes, with exactly the labels that have them. *)
  Theorem collisions_found : forall quiet t missing, obedient listing ->
    generate_indexes index listing labels tlds false quiet [] = Ok (t, missing) ->
    (forall l, In l missing <-> In l labels /\ not_in_lgr index l) /\
    NoDup (dkeys t) /\
    (forall i, dget cps_eqb i t <> None <-> exists a b, a <> b /\ has_index index labels tlds i a /\ has_index index labels tlds i b) /\
    (forall i es, dget cps_eqb i t = Some es -> NoDup (map ce_cp es) /\
       forall l, In l (map ce_cp es) <-> has_index index labels tlds i l).
  Proof.
    intros quiet t missing [O1 O2] H. destruct (generate_inv false quiet t missing O1 H) as [Hs [Hw [Hm [Nt Hr]]]].
    split; [intro l; subst missing; apply absent_In|]. split; [exact Nt|].
    assert (Hcase : forall i, (length (group items i) < 2)%nat /\ dget cps_eqb i t = None \/
      (2 <= length (group items i))%nat /\ exists es, dget cps_eqb i t = Some es /\ NoDup (map ce_cp es) /\ forall l, In l (map ce_cp es) <-> has_index index labels tlds i l).
    { intro i. specialize (Hr i). destruct (group items i) as [|x es] eqn:Eg.
      - left. split; [cbn; lia|exact Hr].
      - rewrite <- Eg in *. unfold outcome_for in Hr. cbn [negb] in Hr. rewrite andb_true_r in Hr. destruct (Nat.ltb (length (group items i)) 2) eqn:El.
        + left. apply Nat.ltb_lt in El. auto.
        + apply Nat.ltb_ge in El. right. split; [exact El|]. cbn [andb] in Hr. destruct quiet.
          * exists (group items i). split; [exact Hr|]. split; [apply group_NoDup|]. apply group_cps.
          * destruct Hr as [es' [E1 E2]]. exists es'. split; [exact E2|].
            destruct (expand_primaries_ok listing (wl false (group items i)) (group items i) (group items i) (group_NoDup i)) as [es2 [F1 [F2 [F3 _]]]].
            { intros p Hp. apply (Hw i); [|apply group_cps; apply in_map; exact Hp]. unfold required. cbn. apply Nat.leb_le in El. exact El. }
            rewrite E1 in F1. injection F1 as F1. subst es2. split; [exact F2|]. intro l. rewrite F3, group_cps. split; [|auto].
            intros [Hl|[p [Hp Hl]]]; [exact Hl|]. apply in_map_iff in Hl. destruct Hl as [[v d] [E Hl]]. cbn in E. subst v.
            assert (Hne : wl false (group items i) <> []) by (unfold wl; rewrite Eg; discriminate).
            apply group_cps. destruct (O2 _ _ _ _ Hne Hl) as [Hi|Hi]; [exact Hi|]. subst l. apply in_map. exact Hp. }
    split.
    - intro i. rewrite <- two_members. destruct (Hcase i) as [[H1 H2]|[H1 [es [H2 _]]]]; rewrite H2.
      + split; [congruence|lia].
      + split; [auto|discriminate].
    - intros i es E. destruct (Hcase i) as [[H1 H2]|[H1 [es' [H2 H3]]]]; [congruence|]. rewrite H2 in E. injection E as E. subst. exact H3.
  Qed.
End Gen.

(** ** Pairs *)
Lemma dump_against : forall l l2 a b, In (a, b) (dump_collisions l (Some l2)) <-> In a l /\ In b l2 /\ a <> b.
Proof.
  induction l as [|x l IH]; intros l2 a b; [cbn; tauto|]. cbn [dump_collisions]. rewrite in_app_iff, IH, in_map_iff. split.
  - intros [[y [E H]]|[H1 H2]].
    + injection E as E1 E2. subst. apply filter_In in H. destruct H as [H1 H2]. apply negb_true_iff in H2. apply cps_eqb_neq in H2.
      split; [left; reflexivity|]. auto.
    + split; [right; exact H1|exact H2].
  - intros [[H1|H1] [H2 H3]]; [|right; auto]. left. subst. exists b. split; [reflexivity|]. apply filter_In. split; [exact H2|].
    apply negb_true_iff. apply cps_eqb_neq. exact H3.
Qed.
Lemma dump_within : forall l a b, NoDup l -> (In (a, b) (dump_collisions l None) <->
  match l with [] => False | x :: r => In b r /\ (a = x \/ (In a r /\ a <> b)) end).
Proof.
  intros [|x r] a b Hn; [cbn; tauto|]. inversion Hn as [|? ? N1 N2]; subst. cbn [dump_collisions]. rewrite in_app_iff, dump_against, in_map_iff. split.
  - intros [[y [E H]]|[H1 [H2 H3]]]; [|tauto]. injection E as E1 E2. subst. apply filter_In in H. tauto.
  - intros [H1 [H2|[H2 H3]]]; [|tauto]. left. subst. exists b. split; [reflexivity|]. apply filter_In. split; [exact H1|].
    apply negb_true_iff. apply cps_eqb_neq. intro E. subst. contradiction.
Qed.
Lemma dump_pairs : forall l a b, NoDup l -> (In (a, b) (dump_collisions l None) \/ In (b, a) (dump_collisions l None) <-> In a l /\ In b l /\ a <> b).
Proof.
  intros l a b Hn. rewrite !dump_within by exact Hn. destruct l as [|x r]; [cbn; tauto|]. inversion Hn as [|? ? N1 N2]; subst. cbn [In]. split.
  - intros [[H1 [H2|[H2 H3]]]|[H1 [H2|[H2 H3]]]]; subst; repeat split; auto; intro E; subst; contradiction.
  - intros [[Ha|Ha] [[Hb|Hb] Hne]]; subst; auto. congruence.
Qed.
Lemma NoDup_pairs : forall (x : cps) (l : list cps), NoDup l -> NoDup (map (fun b : cps => (x, b)) l).
Proof. intros x l H. apply FinFun.Injective_map_NoDup; [|exact H]. intros a b E. congruence. Qed.
Lemma dump_against_NoDup : forall l l2, NoDup l -> NoDup l2 -> NoDup (dump_collisions l (Some l2)).
Proof.
  induction l as [|x l IH]; intros l2 H1 H2; [constructor|]. inversion H1 as [|? ? N1 N2]; subst. cbn [dump_collisions]. apply NoDup_app_iff.
  split; [apply NoDup_pairs; apply NoDup_filter; exact H2|]. split; [apply IH; assumption|].
  intros [a b] Ha Hb. apply dump_against in Hb. apply in_map_iff in Ha. destruct Ha as [y [E _]]. injection E as E1 E2. subst. tauto.
Qed.
Lemma dump_within_NoDup : forall l, NoDup l -> NoDup (dump_collisions l None).
Proof.
  intros [|x l] H; [constructor|]. inversion H as [|? ? N1 N2]; subst. cbn [dump_collisions]. apply NoDup_app_iff.
  split; [apply NoDup_pairs; apply NoDup_filter; exact N2|]. split; [apply dump_against_NoDup; assumption|].
  intros [a b] Ha Hb. apply dump_against in Hb. apply in_map_iff in Ha. destruct Ha as [y [E _]]. injection E as E1 E2. subst. tauto.
Qed.

(** ** The announced collisions *)
Section Basic.
  Variable index : cps -> res cps.
  Variable listing : cps -> list cps -> list (cps * option string) * res unit.
  Variable order : list cps -> list cps.
  Hypothesis Hord : reorders order.

  Lemma order_In : forall l x, In x (order l) <-> In x l.
  Proof. intros l x. split; apply Permutation_in; [apply Permutation_sym|]; apply Hord. Qed.
  Lemma order_NoDup : forall l, NoDup l -> NoDup (order l).
  Proof. intros l H. eapply Permutation_NoDup; [apply Hord|exact H]. Qed.

  Lemma NoDup_flat : forall {A} (f : A -> list (cps * cps)) (g : cps * cps -> A) (l : list A), NoDup l ->
    (forall x, In x l -> NoDup (f x)) -> (forall x p, In x l -> In p (f x) -> g p = x) -> NoDup (flat_map f l).
  Proof.
    intros A f g. induction l as [|x l IH]; intros H1 H2 H3; [constructor|]. inversion H1 as [|? ? N1 N2]; subst. cbn [flat_map]. apply NoDup_app_iff.
    split; [apply H2; left; reflexivity|]. split; [apply IH; auto; intros; [apply H2|apply H3]; auto; right; assumption|].
    intros p Hp Hq. apply in_flat_map in Hq. destruct Hq as [y [Hy Hq]]. assert (x = y).
    { rewrite <- (H3 x p (or_introl eq_refl) Hp). symmetry. rewrite <- (H3 y p (or_intror Hy) Hq). reflexivity. }
    subst. contradiction.
  Qed.

  Theorem basic_collisions : forall labels tlds pl pt missing, NoDup labels -> NoDup tlds -> obedient listing ->
    basic_collision index listing order labels tlds = Ok (pl, pt, missing) ->
    (forall l, In l missing <-> In l labels /\ not_in_lgr index l) /\
    (forall a b, In (a, b) pl \/ In (b, a) pl <-> In a labels /\ In b labels /\ collide index a b) /\
    (forall a b, In (a, b) pt <-> In a labels /\ In b tlds /\ collide index a b) /\
    NoDup pl /\
    ((forall a b c, In a labels -> In b labels -> In c labels -> collide index a b -> collide index a c -> collide index b c -> False) ->
       forall a b, In (a, b) pl -> ~ In (b, a) pl).
  Proof.
    intros labels tlds pl pt missing Hl Ht Ho H. unfold basic_collision in H.
    destruct (generate_indexes index listing labels tlds false true []) as [[t m]|e] eqn:E; [|discriminate]. cbn [bind fst snd] in H.
    injection H as H1 H2 H3. subst m. destruct (collisions_found index listing labels tlds Hl Ht true t missing Ho E) as [A1 [A2 [A3 A4]]].
    split; [exact A1|].
    assert (Hsub : forall i es (ls : list cps), dget cps_eqb i t = Some es -> (forall x, In x ls -> subject labels tlds x) -> forall x,
      In x (order (filter (fun x => memb cps_eqb x (map ce_cp es)) ls)) <-> In x ls /\ index x = Ok i).
    { intros i es ls Hi Hs x. rewrite order_In, filter_In, (memb_In _ _ cps_eqb_eq), (proj2 (A4 i es Hi)). unfold has_index. split; [tauto|]. intros [Hx1 Hx2]. auto. }
    assert (Hvals : forall es, In es (dvals t) <-> exists i, dget cps_eqb i t = Some es).
    { intro es. unfold dvals. rewrite in_map_iff. split.
      - intros [[i es'] [F1 F2]]. cbn in F1. subst. exists i. apply (In_dget _ cps_eqb_eq); assumption.
      - intros [i F]. exists (i, es). split; [reflexivity|]. apply (dget_In _ cps_eqb_eq). exact F. }
    assert (Hshare : forall a b, collide index a b -> subject labels tlds a -> subject labels tlds b -> exists i es, dget cps_eqb i t = Some es /\ index a = Ok i /\ index b = Ok i).
    { intros a b [Hne [i [Ha Hb]]] Sa Sb. destruct (dget cps_eqb i t) as [es|] eqn:Ei.
      - exists i, es. auto.
      - exfalso. revert Ei. apply A3. exists a, b. unfold has_index. auto. }
    set (lab := fun es => order (filter (fun x => memb cps_eqb x (map ce_cp es)) labels)) in *.
    set (fpl := fun es => if Nat.ltb 1 (length (lab es)) then dump_collisions (lab es) None else []) in *.
    assert (Hfpl : forall es p, In p (fpl es) <-> In p (dump_collisions (lab es) None)).
    { intros es p. unfold fpl. destruct (Nat.ltb 1 (length (lab es))) eqn:El; [tauto|]. apply Nat.ltb_ge in El.
      destruct (lab es) as [|x [|y r]]; cbn in *; try tauto; lia. }
    assert (Hlnd : forall es, NoDup (lab es)) by (intro es; apply order_NoDup; apply NoDup_filter; exact Hl).
    assert (Hsl : forall x, In x labels -> subject labels tlds x) by (intros; left; assumption).
    assert (Hpl : forall a b, In (a, b) pl -> exists i es, dget cps_eqb i t = Some es /\ In (a, b) (dump_collisions (lab es) None)).
    { intros a b Hp. rewrite <- H1 in Hp. apply in_flat_map in Hp. destruct Hp as [es [F1 F2]]. apply Hvals in F1. destruct F1 as [i F1]. exists i, es.
      split; [exact F1|]. apply Hfpl. exact F2. }
    assert (Hpl2 : forall i es p, dget cps_eqb i t = Some es -> In p (dump_collisions (lab es) None) -> In p pl).
    { intros i es p Hi Hp. rewrite <- H1. apply in_flat_map. exists es. split; [apply Hvals; eauto|]. apply Hfpl. exact Hp. }
    assert (Hkey : forall i es a b, dget cps_eqb i t = Some es -> In (a, b) (dump_collisions (lab es) None) ->
              In a labels /\ In b labels /\ a <> b /\ index a = Ok i /\ index b = Ok i).
    { intros i es a b Hi Hp. destruct (proj1 (dump_pairs (lab es) a b (Hlnd es)) (or_introl Hp)) as [F1 [F2 F3]].
      apply (Hsub i es labels Hi Hsl) in F1, F2. tauto. }
    split; [|split; [|split]].
    - intros a b. split.
      + intros [Hp|Hp]; apply Hpl in Hp; destruct Hp as [i [es [F1 F2]]]; destruct (Hkey i es _ _ F1 F2) as [G1 [G2 [G3 [G4 G5]]]];
          (split; [assumption|]; split; [assumption|]; split; [congruence|]; exists i; auto).
      + intros [Ha [Hb Hc]]. destruct (Hshare a b Hc (Hsl a Ha) (Hsl b Hb)) as [i [es [F1 [F2 F3]]]].
        assert (Hd : In a (lab es) /\ In b (lab es) /\ a <> b).
        { split; [apply (Hsub i es labels F1 Hsl); auto|]. split; [apply (Hsub i es labels F1 Hsl); auto|]. apply Hc. }
        apply (dump_pairs (lab es) a b (Hlnd es)) in Hd. destruct Hd as [Hd|Hd]; [left|right]; eapply Hpl2; eauto.
    - intros a b. rewrite <- H2, in_flat_map. split.
      + intros [es [F1 F2]]. apply Hvals in F1. destruct F1 as [i F1]. apply dump_against in F2. destruct F2 as [G1 [G2 G3]].
        apply (Hsub i es labels F1 Hsl) in G1. apply (Hsub i es tlds F1) in G2; [|intros; right; assumption].
        split; [tauto|]. split; [tauto|]. split; [exact G3|]. exists i. tauto.
      + intros [Ha [Hb Hc]]. destruct (Hshare a b Hc (Hsl a Ha) (or_intror Hb)) as [i [es [F1 [F2 F3]]]].
        exists es. split; [apply Hvals; eauto|]. apply dump_against. split; [apply (Hsub i es labels F1 Hsl); auto|]. split; [|apply Hc].
        apply (Hsub i es tlds F1); [intros; right; assumption|]. auto.
    - rewrite <- H1. unfold dvals. rewrite flat_map_concat_map, map_map, <- flat_map_concat_map.
      set (key := fun p : cps * cps => match index (fst p) with Ok i => match dget cps_eqb i t with Some es => (i, es) | None => (i, []) end | Raise _ => ([], []) end).
      apply (NoDup_flat _ key); [apply (NoDup_map_inv fst); exact A2| |].
      + intros [i es] _. change (NoDup (fpl es)). unfold fpl. destruct (Nat.ltb 1 (length (lab es))); [|constructor]. apply dump_within_NoDup. apply Hlnd.
      + intros [i es] [a b] Hi Hp. change (In (a, b) (fpl es)) in Hp. apply Hfpl in Hp. assert (Hg : dget cps_eqb i t = Some es) by (apply (In_dget _ cps_eqb_eq); auto).
        destruct (Hkey i es a b Hg Hp) as [_ [_ [_ [G4 _]]]]. unfold key. cbn [fst]. rewrite G4, Hg. reflexivity.
    - intros H3 a b Hp Hq. apply Hpl in Hp, Hq. destruct Hp as [i [es [F1 F2]]], Hq as [j [es' [F3 F4]]].
      destruct (Hkey i es a b F1 F2) as [G1 [G2 [G3 [G4 G5]]]]. destruct (Hkey j es' b a F3 F4) as [_ [_ [_ [G6 _]]]].
      assert (i = j) by congruence. subst j. assert (es = es') by congruence. subst es'.
      pose proof (Hlnd es) as Hn. apply dump_within in F2, F4; [|exact Hn|exact Hn].
      assert (Hin : forall x, In x (lab es) -> In x labels /\ index x = Ok i) by (intros x Hx; apply (Hsub i es labels F1 Hsl); exact Hx).
      destruct (lab es) as [|x r]; [contradiction|]. inversion Hn as [|? ? N1 N2]; subst.
      destruct F2 as [F2 [F5|[F5 F6]]], F4 as [F4 [F7|[F7 F8]]]; try (subst; contradiction).
      destruct (Hin x (or_introl eq_refl)) as [X1 X2].
      assert (x <> a /\ x <> b) as [X3 X4] by (split; intro; subst; contradiction).
      apply (H3 x a b X1 G1 G2); (split; [assumption|exists i; auto]).
  Qed.

  (** Nothing but an index that cannot be computed makes the search fail. *)
  Theorem basic_total : forall labels tlds, NoDup labels -> NoDup tlds -> (forall l, subject labels tlds l -> settled index l) ->
    exists x, basic_collision index listing order labels tlds = Ok x.
  Proof.
    intros labels tlds Hl Ht Hs. destruct (generate_total index listing labels tlds Hl Ht false true Hs) as [t [E _]]; [discriminate|].
    unfold basic_collision. rewrite E. eexists. reflexivity.
  Qed.
End Basic.

(** ** Annotation against a set of labels *)
Section Annotate.
  Variable index : cps -> res cps.
  Variable listing : cps -> list cps -> list (cps * option string) * res unit.

  Lemma table_empty : forall (t : ctable), t = [] <-> forall i, dget cps_eqb i t = None.
  Proof. intros [|[i es] t]; split; intro H; try reflexivity; [discriminate|]. specialize (H i). cbn in H. rewrite cps_eqb_refl in H. discriminate. Qed.

  Theorem set_annotation_spec : forall filtered label v, obedient listing -> set_annotation index listing filtered label = Ok v ->
    (v = Collides <-> exists a b, In a (filtered ++ [label]) /\ In b (filtered ++ [label]) /\ collide index a b) /\
    (v = InSet -> In label filtered) /\ (v = NoCollision -> ~ In label filtered).
  Proof.
    intros filtered label v Ho H. unfold set_annotation, get_collisions in H.
    set (ls := dedup cps_eqb (filtered ++ [label])) in *.
    destruct (generate_indexes index listing ls [] false false []) as [[t m]|e] eqn:E; [|discriminate]. cbn [bind fst] in H.
    assert (Hn : NoDup ls) by (apply (dedup_NoDup _ _ cps_eqb_eq)).
    destruct (collisions_found index listing ls [] Hn (NoDup_nil _) false t m Ho E) as [_ [_ [A3 _]]].
    assert (Hc : (exists i, dget cps_eqb i t <> None) <-> exists a b, In a (filtered ++ [label]) /\ In b (filtered ++ [label]) /\ collide index a b).
    { assert (Hls : forall x, subject ls [] x <-> In x (filtered ++ [label])).
      { intro x. unfold subject, ls. rewrite (dedup_In _ _ cps_eqb_eq). cbn. tauto. }
      split.
      - intros [i Hi]. apply A3 in Hi. destruct Hi as [a [b [H1 [[H2 H3] [H4 H5]]]]]. exists a, b. rewrite <- !Hls. split; [exact H2|]. split; [exact H4|]. split; [exact H1|]. eauto.
      - intros [a [b [H1 [H2 [H3 [i [H4 H5]]]]]]]. exists i. apply A3. exists a, b. unfold has_index. rewrite !Hls. auto. }
    injection H as H. destruct t as [|[i es] t].
    - assert (Hno : ~ exists a b, In a (filtered ++ [label]) /\ In b (filtered ++ [label]) /\ collide index a b).
      { rewrite <- Hc. intros [i Hi]. apply Hi. reflexivity. }
      destruct (memb cps_eqb label filtered) eqn:Em; subst v.
      + split; [split; [discriminate|contradiction]|]. split; [intros _; apply (memb_In _ _ cps_eqb_eq); exact Em|discriminate].
      + split; [split; [discriminate|contradiction]|]. split; [discriminate|]. intros _. apply (memb_false _ _ cps_eqb_eq). exact Em.
    - subst v. split; [|split; discriminate]. split; [intros _|reflexivity]. apply Hc. exists i. cbn. rewrite cps_eqb_refl. discriminate.
  Qed.
  Corollary set_annotation_exact : forall filtered label v, obedient listing -> set_annotation index listing filtered label = Ok v ->
    (forall a b, In a filtered -> In b filtered -> ~ collide index a b) ->
    (v = Collides <-> exists a, In a filtered /\ collide index label a).
  Proof.
    intros filtered label v Ho H Hno. rewrite (proj1 (set_annotation_spec filtered label v Ho H)). split.
    - intros [a [b [Ha [Hb [Hne [i [Ia Ib]]]]]]]. apply in_app_iff in Ha, Hb. destruct Ha as [Ha|[Ha|[]]], Hb as [Hb|[Hb|[]]].
      + exfalso. apply (Hno a b Ha Hb). split; [exact Hne|]. eauto.
      + subst b. exists a. split; [exact Ha|]. split; [congruence|]. eauto.
      + subst a. exists b. split; [exact Hb|]. split; [exact Hne|]. eauto.
      + congruence.
    - intros [a [Ha Hc]]. exists label, a. rewrite !in_app_iff. cbn. auto.
  Qed.
End Annotate.
