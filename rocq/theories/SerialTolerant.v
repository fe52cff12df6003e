From Verif Require Import Base BaseFacts CharModel RepSpec RepProofs RangeProofs VariantProofs UtilsModel
  RefModel LgrModel LgrSpec LgrProofs LgrReach LgrRange LgrInv LgrTags LgrRefs Rfc7940Model ValidateModel
  MetaModel SerialModel SerialSpec SerialProofs.
Open Scope string_scope.
Open Scope list_scope.

Definition grows (g g' : lgr) : Prop :=
  lgr_reachable g' /\ lg_db g' = lg_db g /\ lg_raise g' = lg_raise g /\ forall c, present g c -> present g' c.
Lemma grows_refl : forall g, lgr_reachable g -> grows g g.
Proof. intros g H. split; [exact H|]. auto. Qed.
Lemma grows_trans : forall a b c, grows a b -> grows b c -> grows a c.
Proof. intros a b c [_ [A1 [A2 A3]]] [B0 [B1 [B2 B3]]]. split; [exact B0|]. split; [congruence|]. split; [congruence|]. auto. Qed.
Lemma acceptable_grows : forall g g' c, grows g g' -> acceptable g c -> acceptable g' c.
Proof.
  intros g g' c [_ [G1 [G2 _]]] [H1 H2]. split; [exact H1|]. intros Hr x Hx [d [Hd Hv]]. rewrite G2 in Hr.
  apply (H2 Hr x Hx). exists d. split; [congruence|exact Hv].
Qed.

Definition harmless (x : res unit) : Prop := forall e, x = Raise e -> is_lgr_exception e = true.

Lemma add_cp_tolerant : forall g c cm rf tg w nw, lgr_reachable g ->
  let '(g', x) := lgr_add_cp g c cm rf tg w nw None false true in
  grows g g' /\ harmless x /\ (acceptable g c -> present g' c).
Proof.
  intros g c cm rf tg w nw Hre.
  pose proof (lgr_reachable_step g (LAddCp c cm rf tg w nw None false true) Hre) as Hs. unfold lgr_step in Hs.
  destruct (add_cp_spec g c cm rf tg w nw None false true) as [r [A1 A2]].
  destruct (lgr_add_cp g c cm rf tg w nw None false true) as [g' x]. cbn [fst] in Hs. destruct r as [e|].
  - destruct A2 as [A2 A3]. subst g' x. split; [apply grows_refl; exact Hre|].
    unfold add_cp_checks in A1. cbn [first_failing] in A1.
    destruct A1 as [[e0 [[H1 H2] E]]|[_ A1]].
    { injection E as E. subst. split; [intros e0 H; injection H as H; subst; reflexivity|]. intros [H _]. contradiction. }
    destruct A1 as [[e0 [[H1 [y [H2 H3]]] E]]|[_ A1]].
    { injection E as E. subst. split; [intros e0 H; injection H as H; subst; reflexivity|]. intros [_ H].
      apply first_such_In in H2. exfalso. apply (H H1 y); apply H2. }
    destruct A1 as [[e0 [[H _] _]]|[_ A1]]; [discriminate|].
    destruct A1 as [[e0 [[v [y [H _]]] _]]|[_ A1]]; [discriminate|].
    do 4 (destruct A1 as [[e0 [[H _] _]]|[_ A1]]; [discriminate|]).
    destruct A1 as [[e0 [[H1 H2] E]]|[_ A1]]; [|discriminate].
    injection E as E. subst. split; [intros e0 H; injection H as H; subst; reflexivity|]. auto.
  - destruct A2 as [A2 [A3 [A4 [A5 [A6 [A7 [A8 A9]]]]]]]. subst x. split.
    + split; [exact Hs|]. split; [exact A6|]. split; [exact A7|]. intros d Hd. unfold present in *.
      destruct (cps_eq_dec d c) as [E|E]; [subst; rewrite A3; discriminate|]. rewrite A4 by exact E. exact Hd.
    + split; [intros e H; discriminate|]. intros _. unfold present. rewrite A3. discriminate.
Qed.

Lemma add_variant_tolerant : forall g c v ty w nw cm rf, lgr_reachable g ->
  let '(g', x) := lgr_add_variant g c v ty w nw cm rf None false true in grows g g' /\ harmless x.
Proof.
  intros g c v ty w nw cm rf Hre.
  pose proof (lgr_reachable_step g (LAddVariant c v ty w nw cm rf None false true) Hre) as Hs. unfold lgr_step in Hs.
  pose proof (lgr_reachable_wf g Hre) as Hwf.
  destruct (lgr_add_variant g c v ty w nw cm rf None false true) as [g' x] eqn:E. cbn [fst] in Hs.
  unfold lgr_add_variant in E.
  assert (Hconv : forall u e, check_convert g u = Raise e -> is_lgr_exception e = true).
  { intros u e H. destruct (check_convert_cases g u) as [[e0 [H0 [[_ H1]|[_ [_ [y [_ H1]]]]]]]|[H0 _]]; rewrite H in H0; try discriminate;
      injection H0 as H0; subst; reflexivity. }
  assert (Hsame : forall e, is_lgr_exception e = true -> (g, Raise e) = (g', x) -> grows g g' /\ harmless x).
  { intros e He H. injection H as H1 H2. subst. split; [apply grows_refl; exact Hre|]. intros e0 H. injection H as H. subst. exact He. }
  destruct (check_convert g c) as [c1|e] eqn:Ec; [|eapply Hsame; [eapply Hconv; eauto|exact E]].
  destruct (check_convert g v) as [v1|e] eqn:Ev; [|eapply Hsame; [eapply Hconv; eauto|exact E]].
  assert (Hv1 : v1 <> []).
  { destruct (check_convert_cases g v) as [[e0 [H0 _]]|[H0 [H1 _]]]; rewrite H0 in Ev; [discriminate|]. injection Ev as Ev. subst. exact H1. }
  assert (Hc1 : c1 <> []).
  { destruct (check_convert_cases g c) as [[e0 [H0 _]]|[H0 [H1 _]]]; rewrite H0 in Ec; [discriminate|]. injection Ec as Ec. subst. exact H1. }
  cbn [bind negb andb check_validating] in E.
  destruct (collect_refs_cases g true rf) as [[e [H1 [H2 _]]]|[H1 _]]; [discriminate|].
  rewrite H1 in E. rewrite andb_false_r in E. unfold rep_add_variant in E. rewrite get_char_lk in E by exact Hc1.
  destruct (lk (lg_rep g) c1) as [ch|] eqn:El.
  2:{ eapply (Hsame (NotInLGR c1)); [reflexivity|]. destruct g; exact E. }
  destruct (char_add_variant ch _) as [ch'|e] eqn:Ea.
  - injection E as E1 E2. subst. split; [|intros e H; discriminate]. split; [exact Hs|].
    split; [destruct ty; cbn; try destruct (memb _ _ _); reflexivity|]. split; [destruct ty; cbn; try destruct (memb _ _ _); reflexivity|].
    intros d Hd. unfold present in *. rewrite lookup_lk in *.
    assert (Er : lg_rep (add_type (set_rep g (rep_put (lg_rep g) c1 ch')) ty) = rep_put (lg_rep g) c1 ch') by (destruct ty; cbn; try destruct (memb _ _ _); reflexivity).
    rewrite Er. destruct (char_add_variant_wf _ _ _ (lk_wf _ _ _ Hwf El) Ea) as [_ Hcp]. rewrite (lk_cp _ _ _ El) in Hcp.
    rewrite lk_put; [|exact Hcp|congruence]. destruct (cps_eqb d c1); [discriminate|exact Hd].
  - eapply (Hsame e); [|destruct g; exact E]. unfold char_add_variant in Ea. destruct (is_range ch); [injection Ea as Ea; subst; reflexivity|].
    cbn [v_cp] in Ea. destruct v1 as [|a v1]; [congruence|]. destruct (dget _ _ _); [|discriminate]. destruct (memb _ _ _); [|discriminate].
    injection Ea as Ea. subst. reflexivity.
Qed.

Lemma add_range_tolerant : forall g f l cm rf tg w nw, lgr_reachable g ->
  let '(g', x) := lgr_add_range g f l cm rf tg w nw None false true in
  grows g g' /\ (forall e, x = Raise e -> is_lgr_exception e = true \/ e = IndexError) /\
  (lg_raise g = true \/ lg_db g = None -> x <> Raise IndexError -> forall y, f <= y <= l -> acceptable g [y] -> present g' [y]).
Proof.
  intros g f l cm rf tg w nw Hre. pose proof (lgr_reachable_wf g Hre) as Hwf.
  pose proof (lgr_reachable_step g (LAddRange f l cm rf tg w nw None false true) Hre) as Hs. unfold lgr_step in Hs.
  destruct (add_range_spec g f l cm rf tg w nw None false true Hwf) as [r [A1 A2]]. cbv zeta in A2.
  destruct (add_range_unfold g f l cm rf tg w nw None false true) as [r2 [_ A3]].
  assert (Hdb : lg_db (fst (lgr_add_range g f l cm rf tg w nw None false true)) = lg_db g /\
                lg_raise (fst (lgr_add_range g f l cm rf tg w nw None false true)) = lg_raise g).
  { destruct r2 as [e|]; [rewrite A3; auto|]. destruct A3 as [ks [rs [_ [_ [_ [_ A3]]]]]]. rewrite A3.
    destruct (insert_ranges _ _ _ _ _ _ _) as [r' [u|e]]; [|auto]. cbn [fst]. destruct (fold_tags_db tg ks (set_rep g r')) as [D1 [D2 _]].
    rewrite D1, D2. auto. }
  destruct (lgr_add_range g f l cm rf tg w nw None false true) as [g' x]. cbn [fst] in Hs, Hdb. destruct Hdb as [Hdb Hra].
  destruct r as [e|].
  - destruct A2 as [A2 A4]. subst g' x. split; [apply grows_refl; exact Hre|].
    unfold add_range_checks in A1. cbn [first_failing] in A1.
    destruct A1 as [[e0 [[H1 H2] E]]|[N0 A1]].
    { injection E as E. subst. split; [intros e0 H; injection H as H; subst; auto|]. intros _ _ y Hy. lia. }
    destruct A1 as [[e0 [[H _] _]]|[_ A1]]; [discriminate|].
    destruct A1 as [[e0 [[y [H _]] _]]|[_ A1]].
    { apply first_such_In in H. destruct H as [_ [_ [v [H _]]]]. discriminate. }
    destruct A1 as [[e0 [[y [_ H]] _]]|[_ A1]]; [inversion H; discriminate|].
    do 3 (destruct A1 as [[e0 [[H _] _]]|[_ A1]]; [discriminate|]).
    destruct A1 as [[e0 [[H1 H2] E]]|[_ A1]]; [|discriminate].
    injection E as E. subst. split; [intros e0 H; injection H as H; subst; auto|]. intros _ H. congruence.
  - destruct A2 as [[A2 [B1 [B2 B3]]]|[z [A2 [B1 [B2 [B3 B4]]]]]]; subst x.
    + split; [|split].
      * split; [exact Hs|]. split; [exact Hdb|]. split; [exact Hra|]. intros d Hd. unfold present in *.
        rewrite B3; [exact Hd|]. intros y Hy Hw. apply (B1 y Hw). subst d. exact Hd.
      * intros e H. discriminate.
      * intros Hok _ y Hy Hacc. destruct (lookup (lg_rep g) [y]) as [ch|] eqn:El.
        -- unfold present. rewrite B3; [congruence|]. intros y' Hy' Hw. injection Hy' as Hy'. subst y'. apply (B1 y Hw). unfold present. congruence.
        -- assert (Hw : f <= y <= l /\ to_insert g None false true y).
           { split; [exact Hy|]. left. apply RSt_ok.
             - destruct Hok as [Hok|Hok]; [apply (proj2 Hacc Hok); left; reflexivity|]. intros [d [Hd _]]. congruence.
             - intros v Hv. discriminate.
             - unfold present. congruence. }
           destruct (B2 y Hw) as [k Hk]. unfold present. rewrite Hk. discriminate.
    + assert (Hno : lg_raise g = true \/ lg_db g = None -> False).
      { intro Hok. destruct B1 as [_ [Hz|[[Hz Ho]|[Hz Hr]]]].
        - inversion Hz. contradiction.
        - inversion Hz; discriminate.
        - destruct Hok as [Hok|Hok]; [congruence|]. destruct Hz as [d [Hd _]]. congruence. }
      split; [|split].
      * split; [exact Hs|]. split; [exact Hdb|]. split; [exact Hra|]. intros d Hd. unfold present in *.
        rewrite B4; [exact Hd|]. intros y Hy [Hw Hlt]. apply (proj1 (B3 y Hw Hlt)). subst d. exact Hd.
      * intros e H. injection H as H. subst. left. reflexivity.
      * intros Hok. exfalso. exact (Hno Hok).
Qed.

Lemma process_vars_tolerant : forall vs g r c, lgr_reachable g -> (forall v, In v vs -> exists u, parse_cps (ve_cp v) = Ok u) ->
  exists g' r', process_vars true g r c vs = (g', r', Ok tt) /\ grows g g'.
Proof.
  induction vs as [|v vs IH]; intros g r c Hre Hv.
  - exists g, r. split; [reflexivity|apply grows_refl; exact Hre].
  - cbn [process_vars]. destruct (Hv v (or_introl eq_refl)) as [u Hu]. rewrite Hu.
    pose proof (add_variant_tolerant g c u (ve_type v) (ve_when v) (ve_not_when v) (ve_comment v) (attr_words (ve_ref v)) Hre) as Ha.
    destruct (lgr_add_variant g c u (ve_type v) (ve_when v) (ve_not_when v) (ve_comment v) (attr_words (ve_ref v)) None false true) as [g1 [x|e]].
    + destruct Ha as [Hg _]. cbn [attempt]. destruct (IH g1 r c (proj1 Hg)) as [g' [r' [E1 E2]]]; [intros w Hw; apply Hv; right; exact Hw|].
      exists g', r'. split; [exact E1|eapply grows_trans; eauto].
    + destruct Ha as [Hg Hh]. cbn [attempt]. rewrite (Hh e eq_refl).
      destruct (IH g1 (report_error (report_error r "parse_xml") "codepoint_valid") c (proj1 Hg)) as [g' [r' [E1 E2]]]; [intros w Hw; apply Hv; right; exact Hw|].
      exists g', r'. split; [exact E1|eapply grows_trans; eauto].
Qed.

Lemma process_loop_tolerant : forall l g r prev, lgr_reachable g -> (forall e, In e l -> readable e) ->
  let '(g', r', x) := process_data_loop true g r prev l in
  grows g g' /\ (x = Ok tt \/ x = Raise IndexError) /\ (existsb is_range_elem l = false -> x = Ok tt) /\
  (x = Ok tt -> forall e c, In e l -> stands_for e c -> acceptable g c ->
     is_range_elem e = false \/ lg_raise g = true \/ lg_db g = None -> present g' c).
Proof.
  induction l as [|e l IH]; intros g r prev Hre Hrd.
  - cbn. split; [apply grows_refl; exact Hre|]. split; [left; reflexivity|]. split; [reflexivity|]. intros _ e c [].
  - assert (Hrl : forall e', In e' l -> readable e') by (intros e' He; apply Hrd; right; exact He).
    pose proof (Hrd e (or_introl eq_refl)) as He. destruct e as [cp a vs|f la a vs|].
    + destruct He as [[c Hc] Hv]. cbn [process_data_loop]. rewrite Hc.
      pose proof (add_cp_tolerant g c (at_comment a) (attr_words (at_ref a)) (attr_words (at_tag a)) (at_when a) (at_not_when a) Hre) as Ha.
      destruct (lgr_add_cp g c (at_comment a) (attr_words (at_ref a)) (attr_words (at_tag a)) (at_when a) (at_not_when a) None false true) as [g1 x1].
      destruct Ha as [G1 [Hh Hp]].
      assert (Hat : exists r1, attempt true (check_order prev c r) (g1, x1) = (g1, r1, Ok tt)).
      { destruct x1 as [u|e]; cbn [attempt]; [eauto|]. rewrite (Hh e eq_refl). eauto. }
      destruct Hat as [r1 Hat]. rewrite Hat.
      destruct (process_vars_tolerant vs g1 r1 c (proj1 G1) Hv) as [g2 [r2 [E2 G2]]]. rewrite E2.
      specialize (IH g2 r2 c (proj1 G2) Hrl). destruct (process_data_loop true g2 r2 c l) as [[g' r'] x].
      destruct IH as [G3 [I1 [I2 I3]]]. split; [eapply grows_trans; [exact G1|eapply grows_trans; eauto]|]. split; [exact I1|]. split; [exact I2|].
      intros Hx e c0 [He|He] Hst Hacc Hcond.
      * subst e. cbn [stands_for] in Hst. rewrite Hc in Hst. injection Hst as Hst. subst c0. apply G3. apply G2. apply Hp. exact Hacc.
      * assert (G12 : grows g g2) by (eapply grows_trans; eauto). apply (I3 Hx e c0 He Hst); [eapply acceptable_grows; eauto|].
        destruct G12 as [_ [D1 [D2 _]]]. rewrite D1, D2. exact Hcond.
    + destruct He as [[x Hx] [y Hy]]. cbn [process_data_loop]. rewrite Hx, Hy.
      pose proof (add_range_tolerant g x y (at_comment a) (attr_words (at_ref a)) (attr_words (at_tag a)) (at_when a) (at_not_when a) Hre) as Ha.
      destruct (lgr_add_range g x y (at_comment a) (attr_words (at_ref a)) (attr_words (at_tag a)) (at_when a) (at_not_when a) None false true) as [g1 x1].
      destruct Ha as [G1 [Hh Hp]].
      destruct x1 as [u|e].
      * cbn [attempt]. specialize (IH g1 r prev (proj1 G1) Hrl). destruct (process_data_loop true g1 r prev l) as [[g' r'] z].
        destruct IH as [G3 [I1 [I2 I3]]]. split; [eapply grows_trans; eauto|]. split; [exact I1|]. split; [cbn; discriminate|].
        intros Hz e c0 [He|He] Hst Hacc Hcond.
        -- subst e. cbn [stands_for is_range_elem] in *. destruct Hst as [x' [y' [q [Q1 [Q2 [Q3 Q4]]]]]]. subst c0. assert (x' = x) by congruence. assert (y' = y) by congruence. subst.
           apply G3. apply Hp; [destruct Hcond as [Hcond|Hcond]; [discriminate|exact Hcond]|congruence|exact Q3|exact Hacc].
        -- apply (I3 Hz e c0 He Hst); [eapply acceptable_grows; eauto|]. destruct G1 as [_ [D1 [D2 _]]]. rewrite D1, D2. exact Hcond.
      * cbn [attempt]. destruct (Hh e eq_refl) as [Hl|Hl].
        -- rewrite Hl. set (r1 := report_error (report_error r "parse_xml") "codepoint_valid").
           specialize (IH g1 r1 prev (proj1 G1) Hrl). destruct (process_data_loop true g1 r1 prev l) as [[g' r'] z].
           destruct IH as [G3 [I1 [I2 I3]]]. split; [eapply grows_trans; eauto|]. split; [exact I1|]. split; [cbn; discriminate|].
           intros Hz e0 c0 [He|He] Hst Hacc Hcond.
           ++ subst e0. cbn [stands_for is_range_elem] in *. destruct Hst as [x' [y' [q [Q1 [Q2 [Q3 Q4]]]]]]. subst c0. assert (x' = x) by congruence. assert (y' = y) by congruence. subst.
              apply G3. apply Hp; [destruct Hcond as [Hcond|Hcond]; [discriminate|exact Hcond]| |exact Q3|exact Hacc].
              intro H. injection H as H. subst e. discriminate.
           ++ apply (I3 Hz e0 c0 He Hst); [eapply acceptable_grows; eauto|]. destruct G1 as [_ [D1 [D2 _]]]. rewrite D1, D2. exact Hcond.
        -- subst e. cbn [is_lgr_exception]. split; [exact G1|]. split; [right; reflexivity|]. split; [cbn; discriminate|]. intro H. discriminate.
    + cbn [process_data_loop]. specialize (IH g r prev Hre Hrl). destruct (process_data_loop true g r prev l) as [[g' r'] x].
      destruct IH as [G3 [I1 [I2 I3]]]. split; [exact G3|]. split; [exact I1|]. split; [exact I2|]. intros Hx e c0 [Hi|Hi] Hst; [subst e; contradiction|].
      apply (I3 Hx e c0 Hi Hst).
Qed.

Theorem tolerant_load : forall g r l, lgr_reachable g -> (forall e, In e l -> readable e) ->
  let '(g', r', x) := process_data true g r l in
  (x = Ok tt \/ x = Raise IndexError) /\ (existsb is_range_elem l = false -> x = Ok tt) /\
  (forall c, present g c -> present g' c) /\
  (x = Ok tt -> forall e c, In e l -> stands_for e c -> acceptable g c ->
     is_range_elem e = false \/ lg_raise g = true \/ lg_db g = None -> present g' c).
Proof.
  intros g r l Hre Hrd. pose proof (process_loop_tolerant l g r [] Hre Hrd) as H. unfold process_data.
  destruct (process_data_loop true g r [] l) as [[g' r'] x]. destruct H as [[_ [_ [_ H0]]] [H1 [H2 H3]]].
  destruct x as [u|e].
  - split; [left; reflexivity|]. split; [reflexivity|]. split; [exact H0|]. intros _. destruct u. apply H3. reflexivity.
  - split; [exact H1|]. split; [exact H2|]. split; [exact H0|]. intro H. discriminate.
Qed.
