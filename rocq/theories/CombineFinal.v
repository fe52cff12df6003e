(** Collisions of labels after harmonizing and merging. *)
From Coq Require Import Permutation.
From Verif Require Import Base BaseFacts CharModel RepSpec RepProofs VariantProofs ActionModel LabelModel LabelSpec LabelProofs LabelIndex RefModel LgrModel LgrSpec LgrProofs LgrInv LgrTags LgrRefs LgrReach LgrFinal
  CompareModel CompareFinal PopulateModel PopulateSpec PopulateProofs PopulateFinal ValidateModel ValidateSpec ValidateProofs ValidateFinal HarmonizeModel HarmonizeSpec HarmonizeProofs HarmonizeFinal HarmonizeCopy PopToolProofs HarmToolProofs
  MergeModel MergeProofs MergeSteps MergeLoop MergeSpec MergeRefs MergeFold MergeFinal MergeContext MergePair CombineSpec CombineHarm CombineIndex.
Open Scope N_scope.
Open Scope list_scope.

Lemma reachable_kept : kept_by_all lgr_reachable.
Proof.
  unfold kept_by_all. split; [|split; [|split; [|split]]].
  - intros g c cm G. pose proof (lgr_reachable_step g (LAddCp c cm [] [] None None None false false) G) as K. unfold lgr_step in K. destruct (lgr_add_cp _ _ _ _ _ _ _ _ _ _). exact K.
  - intros g c v ty w nw cm rf G. pose proof (lgr_reachable_step g (LAddVariant c v ty w nw cm rf None false false) G) as K. unfold lgr_step in K. destruct (lgr_add_variant _ _ _ _ _ _ _ _ _ _ _). exact K.
  - intros g c v G. pose proof (lgr_reachable_step g (LDelVariant c v None None) G) as K. unfold lgr_step in K. destruct (lgr_del_variant _ _ _ _ _). exact K.
  - intros g G. pose proof (lgr_reachable_step g LExpandRanges G) as K. unfold lgr_step in K. destruct (lgr_expand_ranges g). exact K.
  - intros g G. exact (lgr_reachable_step g LCopy G).
Qed.

(** ** Harmonized *)
Section Harmonized.
  Variables (order : list cps -> list cps) (g1 g2 : lgr) (root : option lgr) (h1 h2 : lgr) (rs : list cps * list cps).
  Hypotheses (Po : rearranges order) (T1 : tidy g1) (T2 : tidy g2) (Tz : forall z, root = Some z -> tidy z).
  Hypotheses (L1 : letters (lg_rep g1)) (L2 : letters (lg_rep g2)) (Lz : forall z, root = Some z -> letters (lg_rep z)).
  Hypothesis E : harmonize order g1 g2 root = Ok (h1, h2, rs).
  Lemma harm_reachable : lgr_reachable h1 /\ lgr_reachable h2.
  Proof. apply (harmonize_kept lgr_reachable reachable_kept _ _ _ _ _ _ _ E); [apply tidy_reachable; exact T1|apply tidy_reachable; exact T2|]. intros z Hz. apply tidy_reachable. auto. Qed.
  Lemma tidy_free : forall g, tidy g -> letters (lg_rep g) -> freed no_context g /\ singles (lg_rep g).
  Proof. intros g T L. apply letters_freed; [|exact L]. apply lgr_reachable_wf. apply tidy_reachable. exact T. Qed.
  Lemma harm_simple : letters (lg_rep h1) /\ letters (lg_rep h2) /\ simple_lgr (lg_rep h1) /\ simple_lgr (lg_rep h2).
  Proof.
    destruct (tidy_free g1 T1 L1) as [F1 S1]. destruct (tidy_free g2 T2 L2) as [F2 S2].
    destruct (free_harmonize no_context (conj eq_refl eq_refl) order g1 g2 root h1 h2 rs E F1 F2) as [K1 K2]; [intros z Hz; apply (tidy_free z (Tz z Hz) (Lz z Hz))|].
    assert (C : exists a1 b1 a2 b2, completed a1 b1 (lg_rep h1) /\ completed a2 b2 (lg_rep h2) /\ singles a1 /\ singles b1 /\ singles a2 /\ singles b2).
    { destruct rs as [r1 r2]. destruct root as [z|].
      - destruct (tidy_free z (Tz z eq_refl) (Lz z eq_refl)) as [_ Sz].
        destruct (harmonize_root_ok order g1 g2 z h1 h2 r1 r2 Po T1 T2 (Tz z eq_refl) E) as [m1 [m2 [M1 [M2 [M3 [M4 _]]]]]].
        pose proof (completed_singles _ _ _ M1 S1 Sz) as N1. pose proof (completed_singles _ _ _ M2 S2 Sz) as N2.
        exists (lg_rep m1), (lg_rep m2), (lg_rep m2), (lg_rep m1). auto 10.
      - destruct (harmonize_ok order g1 g2 h1 h2 r1 r2 Po T1 T2 E) as [_ [_ [M1 [M2 _]]]]. exists (lg_rep g1), (lg_rep g2), (lg_rep g2), (lg_rep g1). auto 10. }
    destruct C as [a1 [b1 [a2 [b2 [C1 [C2 [Sa1 [Sb1 [Sa2 Sb2]]]]]]]]].
    pose proof (freed_letters h1 K1 (completed_singles _ _ _ C1 Sa1 Sb1)) as M1. pose proof (freed_letters h2 K2 (completed_singles _ _ _ C2 Sa2 Sb2)) as M2.
    split; [exact M1|]. split; [exact M2|]. split; apply letters_simple; auto; [apply (co_symmetric _ _ _ C1)|apply (co_transitive _ _ _ C1)|apply (co_symmetric _ _ _ C2)|apply (co_transitive _ _ _ C2)].
  Qed.
  (** Collisions are not lost. *)
  Lemma harm_keeps : forall rm a b, in_lgr (lg_rep g1) a -> in_lgr (lg_rep g1) b -> variant_labels (lg_rep g1) a b ->
    exists i, has_index rm (lg_rep h1) a i /\ has_index rm (lg_rep h1) b i.
  Proof.
    intros rm a b Ha Hb V. destruct harm_reachable as [R1 _]. destruct harm_simple as [_ [_ [S1 _]]]. pose proof (lgr_reachable_rep h1 R1) as Q1.
    destruct (harmonize_removes_nothing order g1 g2 root h1 h2 rs Po T1 T2 Tz E) as [[_ [_ [N1 N2]]] _].
    assert (Up : forall l, in_lgr (lg_rep g1) l -> in_lgr (lg_rep h1) l).
    { intros l Hl x Hx. specialize (Hl x Hx). destruct (lookup (lg_rep g1) [x]) as [ch|] eqn:Ex; [|congruence]. destruct (N1 _ _ Ex) as [ch' [X _]]. congruence. }
    destruct (index_has rm (lg_rep h1) a Q1 S1 (Up a Ha)) as [i [I1 _]]. destruct (index_has rm (lg_rep h1) b Q1 S1 (Up b Hb)) as [j [J1 _]].
    destruct (simple_index_collision rm (lg_rep h1) Q1 S1 a b (Up a Ha) (Up b Hb)) as [i1 [j1 [X1 [X2 X3]]]].
    assert (V' : Forall2 (interchangeable (lg_rep h1)) a b). { apply variant_labels_iff. unfold variant_labels in *. clear - V N2. induction V as [|x y a b [->|H] F IH]; constructor; auto. }
    apply X3 in V'. exists i. split; [exact I1|]. replace i with j; [exact J1|]. destruct I1 as [I1 _]. destruct J1 as [J1 _]. congruence.
  Qed.
End Harmonized.

(** Two harmonized LGRs find the same collisions. *)
Theorem harmonized_index : forall order g1 g2 h1 h2 rs rm rm', rearranges order -> tidy g1 -> tidy g2 -> letters (lg_rep g1) -> letters (lg_rep g2) ->
  symmetric (lg_rep g1) -> transitive (lg_rep g1) -> symmetric (lg_rep g2) -> transitive (lg_rep g2) -> harmonize order g1 g2 None = Ok (h1, h2, rs) ->
  (forall a, in_lgr (lg_rep h1) a -> in_lgr (lg_rep h2) a -> exists i, has_index rm (lg_rep h1) a i /\ has_index rm' (lg_rep h2) a i) /\
  (forall a b, in_lgr (lg_rep h1) a -> in_lgr (lg_rep h2) b -> exists ia ib, has_index rm (lg_rep h1) a ia /\ has_index rm' (lg_rep h2) b ib /\
     (ia = ib <-> in_lgr (lg_rep h1) b /\ variant_labels (lg_rep h1) a b)).
Proof.
  intros order g1 g2 h1 h2 rs rm rm' Po T1 T2 L1 L2 Sa Ta Sb Tb E.
  assert (Nz : forall P : lgr -> Prop, forall z, None = Some z -> P z) by (intros P z X; discriminate).
  destruct (harm_reachable order g1 g2 None h1 h2 rs T1 T2 (Nz _) E) as [R1 R2]. destruct (harm_simple order g1 g2 None h1 h2 rs Po T1 T2 (Nz _) L1 L2 (Nz _) E) as [_ [_ [S1 S2]]].
  assert (Ag : agreeing (lg_rep h1) (lg_rep h2)) by (intros a b; apply (harmonize_agree order g1 g2 h1 h2 rs); assumption).
  split; [intros a|intros a b]; [apply same_index|apply across]; auto; apply lgr_reachable_rep; assumption.
Qed.
Theorem harmonized_index_root : forall order g1 g2 z h1 h2 rs rm rm', rearranges order -> tidy g1 -> tidy g2 -> tidy z ->
  letters (lg_rep g1) -> letters (lg_rep g2) -> letters (lg_rep z) -> harmonize order g1 g2 (Some z) = Ok (h1, h2, rs) ->
  (forall a, in_lgr (lg_rep h1) a -> in_lgr (lg_rep h2) a -> exists i, has_index rm (lg_rep h1) a i /\ has_index rm' (lg_rep h2) a i) /\
  (forall a b, in_lgr (lg_rep h1) a -> in_lgr (lg_rep h2) b -> exists ia ib, has_index rm (lg_rep h1) a ia /\ has_index rm' (lg_rep h2) b ib /\
     (ia = ib <-> in_lgr (lg_rep h1) b /\ variant_labels (lg_rep h1) a b)).
Proof.
  intros order g1 g2 z h1 h2 rs rm rm' Po T1 T2 T3 L1 L2 L3 E.
  assert (Nz : forall P : lgr -> Prop, P z -> forall z', Some z = Some z' -> P z') by (intros P H z' X; injection X as <-; exact H).
  destruct (harm_reachable order g1 g2 (Some z) h1 h2 rs T1 T2 (Nz _ T3) E) as [R1 R2].
  destruct (harm_simple order g1 g2 (Some z) h1 h2 rs Po T1 T2 (Nz _ T3) L1 L2 (Nz (fun z => letters (lg_rep z)) L3) E) as [_ [_ [S1 S2]]].
  assert (Ag : agreeing (lg_rep h1) (lg_rep h2)) by (intros a b; apply (harmonize_root_agree order g1 g2 z h1 h2 rs); assumption).
  split; [intros a|intros a b]; [apply same_index|apply across]; auto; apply lgr_reachable_rep; assumption.
Qed.
(** Exactly the labels joined by chains of pooled variants collide. *)
Theorem harmonized_collisions : forall order g1 g2 h1 h2 rs rm, rearranges order -> tidy g1 -> tidy g2 -> letters (lg_rep g1) -> letters (lg_rep g2) ->
  harmonize order g1 g2 None = Ok (h1, h2, rs) ->
  forall a b, in_lgr (lg_rep h1) a -> in_lgr (lg_rep h1) b -> exists ia ib, has_index rm (lg_rep h1) a ia /\ has_index rm (lg_rep h1) b ib /\
    (ia = ib <-> Forall2 (fun x y => chained (pooled (lg_rep g1) (lg_rep g2)) [x] [y]) a b).
Proof.
  intros order g1 g2 h1 h2 rs rm Po T1 T2 L1 L2 E a b Ha Hb.
  assert (Nz : forall P : lgr -> Prop, forall z, None = Some z -> P z) by (intros P z X; discriminate).
  destruct (harm_reachable order g1 g2 None h1 h2 rs T1 T2 (Nz _) E) as [R1 R2]. destruct (harm_simple order g1 g2 None h1 h2 rs Po T1 T2 (Nz _) L1 L2 (Nz _) E) as [_ [_ [S1 _]]].
  pose proof (lgr_reachable_rep h1 R1) as Q1. destruct rs as [r1 r2]. destruct (harmonize_ok order g1 g2 h1 h2 r1 r2 Po T1 T2 E) as [_ [_ [C1 _]]].
  destruct (index_has rm (lg_rep h1) a Q1 S1 Ha) as [i [I1 _]]. destruct (index_has rm (lg_rep h1) b Q1 S1 Hb) as [j [J1 _]]. exists i, j. split; [exact I1|]. split; [exact J1|].
  destruct (simple_index_collision rm (lg_rep h1) Q1 S1 a b Ha Hb) as [i1 [j1 [X1 [X2 X3]]]]. destruct I1 as [I1 _]. destruct J1 as [J1 _].
  assert (i1 = i) by congruence. assert (j1 = j) by congruence. subst i1 j1. rewrite X3.
  assert (P : forall x y, interchangeable (lg_rep h1) x y <-> chained (pooled (lg_rep g1) (lg_rep g2)) [x] [y]).
  { intros x y. unfold interchangeable. rewrite maps_target. destruct (N.eq_dec x y) as [->|N]; [split; [intro; constructor|auto]|].
    rewrite (co_related _ _ _ C1 [x] [y]) by congruence. split; [intros [X|X]; [congruence|exact X]|auto]. }
  clear - P. split; intro F; induction F; constructor; auto; apply P; assumption.
Qed.

(** ** Merged *)
Section Merged.
  Variable ord_names : list string -> list string.
  Variable ord_variants : list variant -> list variant.
  Hypothesis Pv : any_order ord_variants.
  Definition Q_free (D : list member) (st : merged) : Prop := forall c ch, lk (lg_rep (mg_lgr st)) c = Some ch -> ch_when ch = None /\ ch_not_when ch = None.
  Lemma join_none : forall script previous c j, join_context script previous None None c = Ok j -> fst j = None.
  Proof. intros script previous c j H. injection H as <-. reflexivity. Qed.
  Lemma contexts_free : forall l st, (forall m, In m l -> tidy (mb_lgr m)) -> (forall m, In m l -> letters (lg_rep (mb_lgr m))) ->
    merge_lgr_set ord_names ord_variants l = Ok st -> Q_free (isort script_leb l) st.
  Proof.
    intros l st T L E. apply (merged_ind ord_names ord_variants Pv Q_free l st); [|exact T| |exact E].
    - intros D s m s' P Hm H _ K c ch' Hc. destruct (lk (lg_rep (mb_lgr m)) c) as [ch|] eqn:Em.
      + destruct (tk_here _ _ _ _ _ _ K c ch Em) as [y [Y1 Y2]]. rewrite Y1 in Hc. injection Hc as ->.
        assert (El : lookup (lg_rep (mb_lgr m)) c = Some ch) by (rewrite lookup_lk; exact Em). destruct (L m Hm c ch El) as [_ [F1 [F2 _]]].
        destruct (lk (lg_rep (mg_lgr s)) c) as [ex|] eqn:Ee.
        * destruct (H c ex Ee) as [G1 G2]. destruct (old_when _ _ _ _ _ _ _ _ Y2) as [j [J1 J2]]. destruct (old_not_when _ _ _ _ _ _ _ _ Y2) as [k [K1 K2]].
          rewrite F1, G1 in J1. rewrite F2, G2 in K1. rewrite J2, K2. split; [apply (join_none _ _ _ _ J1)|apply (join_none _ _ _ _ K1)].
        * rewrite (same_when _ _ Y2), (same_not_when _ _ Y2). cbn [new_head ch_when ch_not_when]. rewrite F1, F2. split; reflexivity.
      + assert (Hs : lk (lg_rep (mg_lgr s)) c <> None).
        { assert (X : lk (lg_rep (mg_lgr s')) c <> None) by congruence. apply (tk_entries _ _ _ _ _ _ K) in X. destruct X as [X|X]; [exact X|congruence]. }
        destruct (lk (lg_rep (mg_lgr s)) c) as [ex|] eqn:Ee; [|congruence]. destruct (tk_old _ _ _ _ _ _ K c ex Em Ee) as [y [Y1 Y2]]. rewrite Y1 in Hc. injection Hc as ->.
        rewrite (same_when _ _ Y2), (same_not_when _ _ Y2). apply (H c ex Ee).
    - intros c ch H. rewrite start_lk in H. discriminate.
  Qed.
  Lemma letters_merged : forall l st, (forall m, In m l -> tidy (mb_lgr m)) -> (forall m, In m l -> letters (lg_rep (mb_lgr m))) ->
    (forall m, In m l -> symmetric (lg_rep (mb_lgr m))) -> merge_lgr_set ord_names ord_variants l = Ok st -> letters (lg_rep (mg_lgr st)).
  Proof.
    intros l st T L S E.
    assert (One : forall c, lookup (lg_rep (mg_lgr st)) c <> None -> exists x, c = [x]).
    { intros c Hc. apply (code_points_merged ord_names ord_variants Pv l st T E) in Hc. destruct Hc as [m [M1 M2]]. unfold has_cp in M2.
      destruct (lookup (lg_rep (mb_lgr m)) c) as [ch|] eqn:Ec; [|congruence]. apply (L m M1 c ch Ec). }
    intros c ch Hc. split; [apply One; congruence|]. pose proof Hc as Hk. rewrite lookup_lk in Hk. destruct (contexts_free l st T L E c ch Hk) as [F1 F2].
    split; [exact F1|]. split; [exact F2|]. intros v Hv. assert (M : mapping (lg_rep (mg_lgr st)) c (v_cp v) v) by (exists ch; auto).
    assert (Y : exists y, v_cp v = [y]).
    { apply One. destruct (merge_symmetric ord_names ord_variants Pv l st T E S c (v_cp v)) as [Y _]; [exists v; exact M|exact Y]. }
    destruct (variants_from ord_names ord_variants Pv l st T E c (v_cp v) v M) as [[m [u [M1 [M2 [_ [_ [M3 [M4 _]]]]]]]]|[[_ [J1 [J2 _]]] _]]; [|auto].
    destruct M2 as [x [X1 [X2 X3]]]. destruct (L m M1 c x X1) as [_ [_ [_ V]]]. destruct (V u X2) as [V1 [V2 _]]. rewrite V1 in M3. rewrite V2 in M4. auto.
  Qed.
  Lemma rebuilt_target : forall r q a b, rebuilt r q -> (has_target q a b <-> has_target r a b).
  Proof.
    intros r q a b [_ [H1 H2]]. unfold has_target, mapping. split; intros [v [ch [A [B C]]]].
    - destruct (lookup r a) as [x|] eqn:E; [|exfalso; apply (proj1 (H1 a)); congruence]. destruct (H2 a x ch E A) as [_ [_ H]]. exists v, x. rewrite <- H. auto.
    - destruct (lookup q a) as [x|] eqn:E; [|exfalso; apply (proj2 (H1 a)); congruence]. destruct (H2 a ch x A E) as [_ [_ H]]. exists v, x. rewrite H. auto.
  Qed.
  Lemma rebuilt_simple : forall r q, rebuilt r q -> letters r -> symmetric r -> transitive r -> simple_lgr q.
  Proof.
    intros r q B L S T. pose proof (fun a b => rebuilt_target r q a b B) as Q. destruct B as [_ [H1 H2]]. apply letters_simple.
    - intros c ch Hc. destruct (lookup r c) as [x|] eqn:E; [|exfalso; apply (proj1 (H1 c)); congruence]. destruct (H2 c x ch E Hc) as [A1 [A2 A3]]. destruct (L c x E) as [L1 [L2 [L3 L4]]].
      split; [exact L1|]. split; [congruence|]. split; [congruence|]. intros v Hv. apply L4. apply A3. exact Hv.
    - intros a b H. apply Q in H. destruct (S a b H) as [X Y]. split; [apply H1; exact X|apply Q; exact Y].
    - intros a b H. apply Q in H. destruct (T a b H) as [X Y]. split; [apply H1; exact X|]. intros c Hc N. apply Q. apply Y; [apply Q; exact Hc|exact N].
  Qed.

  (** Members with no code point in common. *)
  Theorem merged_index : forall l st q rm rm', (forall m, In m l -> tidy (mb_lgr m) /\ letters (lg_rep (mb_lgr m)) /\ complete m) -> (forall c, ~ in_two l c) ->
    merge_lgr_set ord_names ord_variants l = Ok st -> rebuilt (lg_rep (mg_lgr st)) q ->
    forall m, In m l -> (forall a, in_lgr (lg_rep (mb_lgr m)) a -> exists i, has_index rm (lg_rep (mb_lgr m)) a i /\ has_index rm' q a i) /\
    forall a b, in_lgr (lg_rep (mb_lgr m)) a -> in_lgr q b -> exists ia ib, has_index rm' q a ia /\ has_index rm' q b ib /\
      (ia = ib <-> in_lgr (lg_rep (mb_lgr m)) b /\ variant_labels (lg_rep (mb_lgr m)) a b).
  Proof.
    intros l st q rm rm' H Hd E B m Hm.
    assert (T : forall m, In m l -> tidy (mb_lgr m)) by (intros x Hx; apply (H x Hx)). assert (L : forall m, In m l -> letters (lg_rep (mb_lgr m))) by (intros x Hx; apply (H x Hx)).
    assert (S : forall m, In m l -> symmetric (lg_rep (mb_lgr m))) by (intros x Hx; apply (H x Hx)). assert (Tr : forall m, In m l -> transitive (lg_rep (mb_lgr m))) by (intros x Hx; apply (H x Hx)).
    pose proof (rebuilt_simple _ _ B (letters_merged l st T L S E) (merge_symmetric ord_names ord_variants Pv l st T E S) (disjoint_transitive ord_names ord_variants Pv l st T E Hd Tr)) as Sq.
    pose proof (letters_simple _ (L m Hm) (S m Hm) (Tr m Hm)) as Sm.
    assert (Ag : agreeing (lg_rep (mb_lgr m)) q).
    { intros a b _ Ha _. rewrite (rebuilt_target _ _ a b B), (disjoint_targets ord_names ord_variants Pv l st T E Hd). split; [intro X; exists m; auto|].
      intros [m' [N1 N2]]. assert (Q : m = m'); [|subst m'; exact N2]. apply (same_member l m m' a); auto. eapply target_source_lk. exact N2. }
    assert (Rm : reachable (lg_rep (mb_lgr m))) by (apply lgr_reachable_rep, tidy_reachable; auto). destruct B as [Rq [B1 _]].
    assert (Up : forall a, in_lgr (lg_rep (mb_lgr m)) a -> in_lgr q a).
    { intros a Ha x Hx. apply B1. apply (code_points_merged ord_names ord_variants Pv l st T E). exists m. split; [exact Hm|]. apply Ha. exact Hx. }
    assert (SI : forall a, in_lgr (lg_rep (mb_lgr m)) a -> exists i, has_index rm (lg_rep (mb_lgr m)) a i /\ has_index rm' q a i) by (intros a Ha; apply same_index; auto).
    split; [exact SI|]. intros a b Ha Hb. destruct (SI a Ha) as [i [I1 I2]].
    destruct (across rm rm' _ _ Rm Rq Sm Sq Ag a b Ha Hb) as [ia [ib [X1 [X2 X3]]]]. exists i, ib. split; [exact I2|]. split; [exact X2|].
    assert (ia = i); [destruct X1 as [X1 _]; destruct I1 as [I1 _]; congruence|]. subst ia. exact X3.
  Qed.
  (** Members with code points in common. *)
  Theorem merged_keeps : forall l st q rm, (forall m, In m l -> tidy (mb_lgr m) /\ letters (lg_rep (mb_lgr m)) /\ symmetric (lg_rep (mb_lgr m))) ->
    merge_lgr_set ord_names ord_variants l = Ok st -> transitive (lg_rep (mg_lgr st)) -> rebuilt (lg_rep (mg_lgr st)) q ->
    (forall a b, in_lgr q a -> in_lgr q b -> exists ia ib, has_index rm q a ia /\ has_index rm q b ib /\ (ia = ib <-> variant_labels (lg_rep (mg_lgr st)) a b)) /\
    forall m a b, In m l -> in_lgr (lg_rep (mb_lgr m)) a -> in_lgr (lg_rep (mb_lgr m)) b -> variant_labels (lg_rep (mb_lgr m)) a b ->
      exists i, has_index rm q a i /\ has_index rm q b i.
  Proof.
    intros l st q rm H E Tr B.
    assert (T : forall m, In m l -> tidy (mb_lgr m)) by (intros x Hx; apply (H x Hx)). assert (L : forall m, In m l -> letters (lg_rep (mb_lgr m))) by (intros x Hx; apply (H x Hx)).
    assert (S : forall m, In m l -> symmetric (lg_rep (mb_lgr m))) by (intros x Hx; apply (H x Hx)).
    pose proof (rebuilt_simple _ _ B (letters_merged l st T L S E) (merge_symmetric ord_names ord_variants Pv l st T E S) Tr) as Sq.
    assert (Rq : reachable q) by apply B.
    assert (Col : forall a b, in_lgr q a -> in_lgr q b -> exists ia ib, has_index rm q a ia /\ has_index rm q b ib /\ (ia = ib <-> variant_labels (lg_rep (mg_lgr st)) a b)).
    { intros a b Ha Hb. destruct (index_has rm q a Rq Sq Ha) as [i [I1 _]]. destruct (index_has rm q b Rq Sq Hb) as [j [J1 _]]. exists i, j. split; [exact I1|]. split; [exact J1|].
      destruct (simple_index_collision rm q Rq Sq a b Ha Hb) as [i1 [j1 [X1 [X2 X3]]]]. destruct I1 as [I1 _]. destruct J1 as [J1 _].
      assert (i1 = i) by congruence. assert (j1 = j) by congruence. subst i1 j1. rewrite X3, <- variant_labels_iff. unfold variant_labels. pose proof (fun x y => rebuilt_target _ _ x y B) as Q.
      clear - Q. split; intro F; (induction F as [|x y a b [->|H] F IH]; constructor; auto); right; apply Q; exact H. }
    split; [exact Col|]. intros m a b Hm Ha Hb V.
    assert (Up : forall a, in_lgr (lg_rep (mb_lgr m)) a -> in_lgr q a).
    { intros c Hc x Hx. destruct B as [_ [B1 _]]. apply B1. apply (code_points_merged ord_names ord_variants Pv l st T E). exists m. split; [exact Hm|]. apply Hc. exact Hx. }
    destruct (Col a b (Up a Ha) (Up b Hb)) as [ia [ib [X1 [X2 X3]]]].
    assert (V' : variant_labels (lg_rep (mg_lgr st)) a b).
    { unfold variant_labels in *. pose proof (variants_kept ord_names ord_variants Pv l st T E m) as K. clear - V K Hm. induction V as [|x y a b [->|[v H]] F IH]; constructor; auto.
      right. destruct (K _ _ v Hm H) as [w [W _]]. exists w. exact W. }
    apply X3 in V'. subst ib. eauto.
  Qed.
  (** Two members sharing one code point at most. *)
  Theorem merged_pair_keeps : forall m1 m2 st q rm s, (forall m, In m [m1; m2] -> tidy (mb_lgr m) /\ letters (lg_rep (mb_lgr m)) /\ complete m) ->
    (forall c, has_cp m1 c -> has_cp m2 c -> c = s) -> merge_lgr_set ord_names ord_variants [m1; m2] = Ok st -> rebuilt (lg_rep (mg_lgr st)) q ->
    (forall a b, in_lgr q a -> in_lgr q b -> exists ia ib, has_index rm q a ia /\ has_index rm q b ib /\ (ia = ib <-> variant_labels (lg_rep (mg_lgr st)) a b)) /\
    forall m a b, In m [m1; m2] -> in_lgr (lg_rep (mb_lgr m)) a -> in_lgr (lg_rep (mb_lgr m)) b -> variant_labels (lg_rep (mb_lgr m)) a b ->
      exists i, has_index rm q a i /\ has_index rm q b i.
  Proof.
    intros m1 m2 st q rm s H Hs E B. apply merged_keeps; [intros m Hm; destruct (H m Hm) as [A1 [A2 [A3 _]]]; auto|exact E| |exact B].
    assert (U : forall m, In m [m1; m2] -> unconditional m).
    { intros m Hm a b v [ch [X1 [X2 X3]]]. destruct (H m Hm) as [_ [L _]]. destruct (L _ _ X1) as [_ [_ [_ V]]]. destruct (V v X2) as [V1 [V2 _]]. auto. }
    assert (I1 : In m1 [m1; m2]) by (left; reflexivity). assert (I2 : In m2 [m1; m2]) by (right; left; reflexivity).
    apply (one_shared_complete ord_names ord_variants Pv m1 m2 st s); auto; apply H; assumption.
  Qed.
End Merged.
