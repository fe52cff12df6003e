(** Completing the variants leaves the mappings of code points to themselves. *)
From Verif Require Import Base BaseFacts CharModel RepSpec RepProofs VariantProofs LgrModel LgrSpec LgrProofs LgrReach LgrInv LgrRefs Rfc7940Model
  ValidateModel ValidateSpec ValidateProofs PopulateModel PopulateSpec PopulateProofs PopulateSteps PopulateFinal
  CompareModel CompareProofs HarmonizeModel HarmonizeSpec HarmonizeProofs HarmonizeFinal HarmonizeKeep HarmonizeCopy LabelModel VerdictSpec VerdictProofs.
Open Scope string_scope.
Open Scope list_scope.

(** ** The calls made *)
Definition selves (g g' : lgr) : Prop := forall a w, mapping (lg_rep g') a a w <-> mapping (lg_rep g) a a w.
Lemma selves_refl : forall g, selves g g.
Proof. intros g a w. tauto. Qed.
Lemma selves_trans : forall f g h, selves f g -> selves g h -> selves f h.
Proof. intros f g h A B a w. rewrite (B a w). apply A. Qed.
Lemma put_selves : forall g c v ty w nw cm rf, lgr_reachable g -> c <> v -> selves g (fst (put_variant g c v ty w nw cm rf)).
Proof.
  intros g c v ty w nw cm rf Hre Hne. destruct (check_convert g v) as [v'|e] eqn:Ev.
  2:{ unfold put_variant, lgr_add_variant. rewrite Ev. destruct (check_convert g c); cbn [bind fst]; apply selves_refl. }
  pose proof (check_convert_id g v v' Ev) as [-> _].
  destruct (lk (lg_rep g) c) as [ch|] eqn:Ec.
  - pose proof (put_variant_spec g c ch v ty w nw cm rf Hre Ec Ev) as H. destruct (put_variant g c v ty w nw cm rf) as [g' o]. cbn [fst].
    destruct H as [_ [[_ [_ [ch' [Hu [_ Hi]]]]]|[e [_ [-> _]]]]]; [|apply selves_refl].
    intros a u. rewrite (updated_mapping _ _ _ _ a a u Hu). rewrite (mapping_lk (lg_rep g)). split.
    + intros [[E [H1 H2]]|[_ H]]; [|exact H]. subst a. apply Hi in H1. destruct H1 as [H1|H1]; [subst u; cbn in H2; congruence|]. exists ch. auto.
    + intros [x [H1 [H2 H3]]]. destruct (cps_eq_dec a c) as [E|E]; [|right; split; [exact E|exists x; auto]]. left. split; [exact E|]. split; [|exact H3].
      apply Hi. right. rewrite E in H1. congruence.
  - assert (K : fst (put_variant g c v ty w nw cm rf) = g); [|rewrite K; apply selves_refl].
    unfold put_variant, lgr_add_variant. rewrite Ev. destruct (check_convert g c) as [c'|e] eqn:Ecc; [|reflexivity].
    pose proof (check_convert_id g c c' Ecc) as [-> Hnc]. cbn [bind].
    destruct (_ && _)%bool; [reflexivity|]. cbn [check_validating]. destruct (collect_refs _ _ _) as [rs|e]; [|reflexivity]. destruct (_ && _)%bool; [reflexivity|].
    unfold rep_add_variant. rewrite get_char_lk by exact Hnc. rewrite Ec. destruct g; reflexivity.
Qed.
Lemma del_selves : forall g c v, lgr_reachable g -> c <> v -> v <> [] -> selves g (fst (lgr_del_variant g c v None None)).
Proof.
  intros g c v Hre Hne Hv. destruct (lk (lg_rep g) c) as [ch|] eqn:Ec.
  - pose proof (del_variant_spec g c ch v Hre Ec Hv) as H. destruct (lgr_del_variant g c v None None) as [g' o]. cbn [fst].
    destruct H as [_ [[_ [b [_ [ch' [Hu [_ Hi]]]]]]|[e [_ [-> _]]]]]; [|apply selves_refl].
    intros a u. rewrite (updated_mapping _ _ _ _ a a u Hu). rewrite (mapping_lk (lg_rep g)). split.
    + intros [[E [H1 H2]]|[_ H]]; [|exact H]. subst a. apply Hi in H1. exists ch. tauto.
    + intros [x [H1 [H2 H3]]]. destruct (cps_eq_dec a c) as [E|E]; [|right; split; [exact E|exists x; auto]]. left. split; [exact E|]. split; [|exact H3]. rewrite E in H1.
      apply Hi. split; [congruence|]. unfold vkey. rewrite H3. congruence.
  - assert (K : fst (lgr_del_variant g c v None None) = g); [|rewrite K; apply selves_refl].
    unfold lgr_del_variant. destruct (check_convert g c) as [c'|e] eqn:Ecc; [|reflexivity].
    pose proof (check_convert_id g c c' Ecc) as [-> Hnc]. unfold rep_del_variant. rewrite get_char_lk by exact Hnc. rewrite Ec. destruct g; reflexivity.
Qed.
Lemma put_reach : forall g c v ty w nw cm rf, lgr_reachable g -> lgr_reachable (fst (put_variant g c v ty w nw cm rf)).
Proof. intros g c v ty w nw cm rf H. pose proof (lgr_reachable_step g (LAddVariant c v ty w nw cm rf None false false) H) as K. unfold lgr_step in K. unfold put_variant. destruct (lgr_add_variant g c v ty w nw cm rf None false false). exact K. Qed.
Lemma del_reach : forall g c v, lgr_reachable g -> lgr_reachable (fst (lgr_del_variant g c v None None)).
Proof. intros g c v H. pose proof (lgr_reachable_step g (LDelVariant c v None None) H) as K. unfold lgr_step in K. destruct (lgr_del_variant g c v None None). exact K. Qed.

(** ** The loops *)
Section Self.
  Variable g0 : lgr.
  Definition fine (g : lgr) : Prop := lgr_reachable g /\ selves g0 g.
  Lemma put_fine : forall g c v ty w nw cm rf, fine g -> c <> v -> fine (fst (put_variant g c v ty w nw cm rf)).
  Proof. intros g c v ty w nw cm rf [H1 H2] N. split; [apply put_reach; exact H1|]. eapply selves_trans; [exact H2|apply put_selves; assumption]. Qed.
  Lemma andthen_fine : forall x f, fine (fst x) -> (forall g, fine g -> fine (fst (f g))) -> fine (fst (andthen x f)).
  Proof. intros [g [u|e]] f H1 H2; cbn [andthen fst] in *; auto. Qed.
  Definition known (a : cps) (b : variant) : Prop := v_cp b <> [] /\ (v_cp b = a -> mapping (lg_rep g0) a a b).
  Definition step_fine (f : lgr -> cps -> variant -> lgr * res unit) : Prop := forall g a b, fine g -> known a b -> fine (fst (f g a b)).

  Lemma each_variant_fine : forall f, step_fine f -> forall l g a, fine g -> (forall b, In b l -> known a b) -> fine (fst (each_variant f g a l)).
  Proof.
    intros f Hf l. induction l as [|b l IH]; intros g a Hg Hl; [exact Hg|]. cbn [each_variant]. pose proof (Hf g a b Hg (Hl b (or_introl eq_refl))) as K.
    destruct (f g a b) as [g' [u|e]]; cbn [fst] in *; [|exact K]. apply IH; [exact K|]. intros x Hx. apply Hl. right. exact Hx.
  Qed.
  Lemma each_char_fine : forall f, step_fine f -> forall l g, fine g -> fine (fst (each_char f g l)).
  Proof.
    intros f Hf l. induction l as [|a l IH]; intros g Hg; [exact Hg|]. cbn [each_char]. destruct (rep_get_char (lg_rep g) (ch_cp a)) as [cur|e] eqn:E; [|exact Hg].
    assert (L : lk (lg_rep g) (ch_cp a) = Some cur).
    { assert (N : ch_cp a <> []) by (intro Z; rewrite Z in E; discriminate). rewrite get_char_lk in E by exact N. destruct (lk (lg_rep g) (ch_cp a)); congruence. }
    assert (V : forall b, In b (get_variants cur) -> known (ch_cp a) b).
    { intros b Hb. assert (M : mapping (lg_rep g) (ch_cp a) (v_cp b) b) by (apply mapping_lk; exists cur; auto). split.
      - apply (check_convert_id g _ _ (target_accepted g (ch_cp a) (v_cp b) (proj1 Hg) (ex_intro _ b M))).
      - intro Z. rewrite Z in M. apply (proj2 Hg). exact M. }
    pose proof (each_variant_fine f Hf (get_variants cur) g (ch_cp a) Hg V) as K. destruct (each_variant f g (ch_cp a) (get_variants cur)) as [g' [u|e]]; cbn [fst] in *; auto.
  Qed.
  Lemma each_key_fine : forall f, step_fine f -> forall ks g last, fine g -> fine (fst (each_key f g last ks)).
  Proof.
    intros f Hf ks. induction ks as [|k ks IH]; intros g last Hg; [exact Hg|]. cbn [each_key]. destruct (iter_bucket _ _) as [last' out].
    pose proof (each_char_fine f Hf out g Hg) as K. destruct (each_char f g out) as [g' [u|e]]; cbn [fst] in *; auto.
  Qed.
  Lemma mapping_fine : forall f, step_fine f -> forall g, fine g -> fine (fst (each_mapping f g)).
  Proof. intros. apply each_key_fine; assumption. Qed.

  Lemma known_here : forall g a b, fine g -> known a b -> v_cp b = a -> exists ch, lk (lg_rep g) a = Some ch /\ In b (get_variants ch).
  Proof. intros g a b Hg [_ K] E. apply K in E. apply (proj2 Hg) in E. apply mapping_lk in E. destruct E as [ch [E1 [E2 _]]]. exists ch. auto. Qed.
  Lemma missing_fine : step_fine add_missing.
  Proof.
    intros g a b Hg Hk. unfold add_missing. destruct (lgr_get_variants g (v_cp b)) as [vs|e] eqn:E; [exact Hg|]. destruct e; try exact Hg.
    assert (N : v_cp b <> a).
    { intro Z. destruct (known_here g a b Hg Hk Z) as [ch [L _]]. rewrite Z, (get_variants_present g (proj1 Hg) a ch L) in E. discriminate. }
    apply andthen_fine; [|intros g1 H1; apply put_fine; assumption].
    assert (Hc : check_convert g (v_cp b) = Ok (v_cp b) /\ lk (lg_rep g) (v_cp b) = None \/ fst (lgr_add_cp g (v_cp b) None [] [] None None None false false) = g).
    { destruct (check_convert g (v_cp b)) as [x|x] eqn:X.
      - left. pose proof (check_convert_id g _ _ X) as [-> _]. split; [reflexivity|]. destruct (lk (lg_rep g) (v_cp b)) as [ch|] eqn:L; [|reflexivity].
        rewrite (get_variants_present g (proj1 Hg) _ ch L) in E. discriminate.
      - right. unfold lgr_add_cp. rewrite X. reflexivity. }
    destruct Hc as [[C L]|C]; [|rewrite C; exact Hg].
    destruct (add_bare_spec g (v_cp b) (proj1 Hg) C L) as [g1 [E1 [R1 [_ H1]]]]. rewrite E1. cbn [fst]. split; [exact R1|]. eapply selves_trans; [apply Hg|].
    intros x w. rewrite !mapping_lk. split; intros [ch [K1 K2]].
    - rewrite H1 in K1. destruct (cps_eqb x (v_cp b)); [|eauto]. injection K1 as <-. destruct K2 as [[] _].
    - exists ch. split; [|exact K2]. rewrite H1. destruct (cps_eqb x (v_cp b)) eqn:Q; [|exact K1]. apply cps_eqb_eq in Q. congruence.
  Qed.
  Lemma last_rule_In : forall (get : variant -> option string) l b acc, In b l \/ truthy acc = true -> (In b l -> truthy (get b) = true) -> truthy (fold_left (fun acc r => if truthy (get r) then get r else acc) l acc) = true.
  Proof.
    intros get l b. induction l as [|x l IH]; intros acc H T; cbn [fold_left].
    - destruct H as [[]|H]. exact H.
    - apply IH; [|intro K; apply T; right; exact K]. destruct H as [[->|H]|H]; [right|left; exact H|].
      + rewrite (T (or_introl eq_refl)). apply T. left. reflexivity.
      + right. destruct (truthy (get x)) eqn:Z; [exact Z|exact H].
  Qed.
  Lemma replace_fine : forall g c r w nw, fine g -> c <> v_cp r -> v_cp r <> [] -> fine (fst (replace_variant g c r w nw)).
  Proof.
    intros g c r w nw Hg N Z. unfold replace_variant. assert (K : fine (fst (lgr_del_variant g c (v_cp r) None None))).
    { split; [apply del_reach; apply Hg|]. eapply selves_trans; [apply Hg|]. apply del_selves; [apply Hg|exact N|exact Z]. }
    destruct (lgr_del_variant g c (v_cp r) None None) as [g1 [u|e]]; cbn [fst] in *; [|exact K]. apply put_fine; assumption.
  Qed.
  Lemma symmetry_fine : step_fine symmetry_step.
  Proof.
    intros g a b Hg Hk. unfold symmetry_step. destruct (lgr_get_variants g (v_cp b)) as [vs|e] eqn:E; [|exact Hg].
    destruct (cps_eq_dec (v_cp b) a) as [Z|Z].
    - destruct (known_here g a b Hg Hk Z) as [ch [L Hb]]. rewrite Z, (get_variants_present g (proj1 Hg) a ch L) in E. injection E as <-.
      assert (In b (filter (fun v => cps_eqb a (v_cp v)) (get_variants ch))) as Hf by (apply filter_In; split; [exact Hb|rewrite Z; apply cps_eqb_refl]).
      set (rev := filter (fun v => cps_eqb a (v_cp v)) (get_variants ch)) in *.
      assert (T : forall get, (truthy (get b) && negb (truthy (last_rule get rev)))%bool = false).
      { intro get. destruct (truthy (get b)) eqn:Tb; [|reflexivity]. cbn [andb]. unfold last_rule. rewrite (last_rule_In get rev b None (or_introl Hf) (fun _ => Tb)). reflexivity. }
      assert (W : symmetry_when g a b rev = (g, Ok tt)) by (unfold symmetry_when; cbv zeta; rewrite (T v_when); reflexivity).
      assert (W' : symmetry_not_when g a b rev = (g, Ok tt)) by (unfold symmetry_not_when; cbv zeta; rewrite (T v_not_when); reflexivity).
      cbv zeta. rewrite W. cbn [andthen]. rewrite W'. destruct rev; [contradiction|exact Hg].
    - assert (A : lk (lg_rep g) (v_cp b) <> None -> forall r, In r (filter (fun v => cps_eqb a (v_cp v)) vs) -> v_cp b <> v_cp r /\ v_cp r <> []).
      { intros L r Hr. destruct (lk (lg_rep g) (v_cp b)) as [ch|] eqn:X; [|congruence]. rewrite (get_variants_present g (proj1 Hg) _ ch X) in E. injection E as <-.
        apply filter_In in Hr. destruct Hr as [R1 R2]. apply cps_eqb_eq in R2. split; [congruence|].
        assert (M : mapping (lg_rep g) (v_cp b) (v_cp r) r) by (apply mapping_lk; exists ch; auto).
        apply (check_convert_id g _ _ (target_accepted g _ _ (proj1 Hg) (ex_intro _ r M))). }
      assert (L : lk (lg_rep g) (v_cp b) <> None).
      { intro X. unfold lgr_get_variants in E. destruct (check_convert g (v_cp b)) as [c|] eqn:C; [|discriminate]. pose proof (check_convert_id g _ _ C) as [-> _].
        fold (lgr_get_variants g (v_cp b)) in *. cbn [bind] in E. unfold rep_get_variants in E. rewrite get_char_lk in E by apply Hk. rewrite X in E. discriminate. }
      specialize (A L). destruct (filter (fun v => cps_eqb a (v_cp v)) vs) as [|r rs] eqn:F; [apply put_fine; assumption|].
      destruct (A r (or_introl eq_refl)) as [A1 A2]. cbv zeta. apply andthen_fine.
      + unfold symmetry_when. cbv zeta. destruct (_ && _)%bool; [|exact Hg]. destruct (truthy _); [apply put_fine; assumption|]. apply replace_fine; assumption.
      + intros g1 H1. unfold symmetry_not_when. cbv zeta. destruct (_ && _)%bool; [|exact H1]. destruct (truthy _); [apply put_fine; assumption|]. apply replace_fine; assumption.
  Qed.
  Lemma targets_fine : forall cs g a, fine g -> (forall c, In c cs -> v_cp c <> a) -> fine (fst (transitivity_targets g a cs)).
  Proof.
    induction cs as [|c cs IH]; intros g a Hg Hc; [exact Hg|]. cbn [transitivity_targets]. destruct (rep_get_char (lg_rep g) a) as [cur|e]; [|exact Hg].
    assert (H : forall x, In x cs -> v_cp x <> a) by (intros x Hx; apply Hc; right; exact Hx). pose proof (Hc c (or_introl eq_refl)) as N.
    destruct (memb _ _ _); [apply IH; assumption|]. apply andthen_fine; [apply put_fine; [exact Hg|congruence]|]. intros g1 H1. apply IH; assumption.
  Qed.
  Lemma transitivity_fine : step_fine transitivity_step.
  Proof.
    intros g a b Hg _. unfold transitivity_step. destruct (lgr_get_variants g (v_cp b)) as [vs|e]; [|exact Hg]. apply targets_fine; [exact Hg|].
    intros c Hc. apply filter_In in Hc. destruct Hc as [_ Hc]. apply negb_true_iff in Hc. apply cps_eqb_neq. exact Hc.
  Qed.
  Lemma balance_fine : forall n g, fine g -> fine (fst (balance n g)).
  Proof.
    induction n as [|n IH]; intros g Hg; cbn [balance]; destruct (balanced g) as [[]|e]; try exact Hg.
    apply andthen_fine; [apply mapping_fine; [exact symmetry_fine|exact Hg]|]. intros g1 H1. apply andthen_fine; [apply mapping_fine; [exact transitivity_fine|exact H1]|exact IH].
  Qed.
  Lemma populate_fine : forall g, fine g -> fine (fst (populate g)).
  Proof.
    intros g Hg. unfold populate. apply andthen_fine; [apply mapping_fine; [exact missing_fine|exact Hg]|]. intros g1 H1. apply andthen_fine; [apply balance_fine; exact H1|].
    intros g2 H2. destruct (passed (check_symmetry g2 false)) as [[]|e]; try exact H2. apply mapping_fine; [exact symmetry_fine|exact H2].
  Qed.
End Self.
Theorem populate_selves : forall g, lgr_reachable g -> selves g (fst (populate g)).
Proof. intros g H. apply (populate_fine g g). split; [exact H|apply selves_refl]. Qed.

(** ** The two ways of completing an LGR *)
Lemma settled_refl : forall r, settled r r.
Proof. intros r c ch H. exists ch. split; [exact H|]. split; [reflexivity|]. split; [reflexivity|]. tauto. Qed.
Lemma settled_trans : forall a b c, settled a b -> settled b c -> settled a c.
Proof.
  intros a b c H K x ch X. destruct (H x ch X) as [ch' [H1 [H2 [H3 H4]]]]. destruct (K x ch' H1) as [ch'' [K1 [K2 [K3 K4]]]].
  exists ch''. split; [exact K1|]. split; [congruence|]. split; [congruence|]. intro v. rewrite K4. apply H4.
Qed.
Theorem populate_settled : forall g g' o, lgr_reachable g -> populate g = (g', o) -> settled (lg_rep g) (lg_rep g').
Proof.
  intros g g' o Hre E c ch H. destruct (populate_respects g g' o Hre E) as [_ [_ [_ [_ [_ [_ [_ [K _]]]]]]]]. destruct (K c ch H) as [ch' [K1 [_ [_ [_ [_ [_ [K2 K3]]]]]]]].
  exists ch'. split; [exact K1|]. split; [exact K2|]. split; [exact K3|]. intro v. pose proof (populate_selves g Hre c v) as S. rewrite E in S. exact S.
Qed.
Lemma spelled_settled : forall g e, spelled_out g e -> settled (lg_rep g) (lg_rep e).
Proof.
  intros g e S c ch H. pose proof S as [_ [_ [L _]]]. rewrite lookup_lk in H. exists (single ch). split; [rewrite lookup_lk, L, H; reflexivity|].
  split; [destruct ch; reflexivity|]. split; [destruct ch; reflexivity|]. intro v. apply (spelled_mapping _ _ c c v S).
Qed.
Lemma more_settled : forall G H x cs, more G x (Nw G H cs) (Ot G H cs) -> settled (lg_rep G) (lg_rep x).
Proof.
  intros G H x cs M c ch L. rewrite lookup_lk in L. destruct (m_old _ _ _ _ M c ch L) as [ch' [K1 [_ [_ [_ [_ [_ [K2 K3]]]]]]]].
  exists ch'. split; [rewrite lookup_lk; exact K1|]. split; [exact K2|]. split; [exact K3|]. intro v. rewrite (m_map _ _ _ _ M c c v). split; [|auto].
  intros [X|[[_ [_ [X _]]]|[X _]]]; [exact X|congruence|congruence].
Qed.
Lemma expanded_settled : forall order g1 g2 e1 e2 h1 h2 rs, rearranges order -> spelled_out g1 e1 -> spelled_out g2 e2 ->
  harmonize_expanded order e1 e2 = Ok (h1, h2, rs) -> settled (lg_rep g1) (lg_rep h1) /\ settled (lg_rep g2) (lg_rep h2).
Proof.
  intros order g1 g2 e1 e2 h1 h2 [r1 r2] Po S1 S2 E.
  destruct (expanded_harmonized order e1 e2 h1 h2 r1 r2 Po (spelled_expanded _ _ S1) (spelled_expanded _ _ S2) E) as [x1 [x2 [cs [_ [M1 [M2 [P1 [P2 _]]]]]]]].
  split.
  - eapply settled_trans; [apply (spelled_settled _ _ S1)|]. eapply settled_trans; [apply (more_settled _ _ _ _ M1)|apply (populate_settled _ _ _ (proj1 (m_exp _ _ _ _ M1)) P1)].
  - eapply settled_trans; [apply (spelled_settled _ _ S2)|]. eapply settled_trans; [apply (more_settled _ _ _ _ M2)|apply (populate_settled _ _ _ (proj1 (m_exp _ _ _ _ M2)) P2)].
Qed.
Theorem copies_settled : forall order g1 g2 root h1 h2 rs, rearranges order -> tidy g1 -> tidy g2 -> (forall z, root = Some z -> tidy z) ->
  harmonize_copies order g1 g2 root = Ok (h1, h2, rs) -> settled (lg_rep g1) (lg_rep h1) /\ settled (lg_rep g2) (lg_rep h2).
Proof.
  intros order g1 g2 root h1 h2 rs Po T1 T2 Tz E. unfold harmonize_copies in E.
  destruct (expanded_ok g1 T1) as [e1 [E1 S1]]. destruct (expanded_ok g2 T2) as [e2 [E2 S2]]. rewrite E1, E2 in E. cbn [finished bind] in E.
  destruct root as [z|]; [|exact (expanded_settled order g1 g2 e1 e2 h1 h2 rs Po S1 S2 E)]. specialize (Tz z eq_refl).
  assert (Two : forall e h y q, tidy e -> harmonize_two order e z = Ok (h, y, q) -> expanded h /\ settled (lg_rep e) (lg_rep h)).
  { intros e h y [qa qb] Te Ee. destruct (harmonize_two_ok order e z h y qa qb Po Te Tz Ee) as [X _]. split; [exact X|]. unfold harmonize_two in Ee.
    destruct (expanded_ok e Te) as [e' [E' S']]. destruct (expanded_ok z Tz) as [z' [Ez Sz]]. rewrite E', Ez in Ee. cbn [finished bind] in Ee.
    exact (proj1 (expanded_settled order e z e' z' h y _ Po S' Sz Ee)). }
  destruct (harmonize_two order e1 z) as [[[m1 y1] q1]|e] eqn:H1; [|discriminate]. cbn [bind fst] in E.
  destruct (harmonize_two order e2 z) as [[[m2 y2] q2]|e] eqn:H2; [|discriminate]. cbn [bind fst] in E.
  destruct (Two _ _ _ _ (tidy_expand _ _ _ T1 E1) H1) as [X1 A1]. destruct (Two _ _ _ _ (tidy_expand _ _ _ T2 E2) H2) as [X2 A2].
  destruct (expanded_settled order m1 m2 m1 m2 h1 h2 rs Po (already_spelled _ X1) (already_spelled _ X2) E) as [K1 K2].
  split.
  - eapply settled_trans; [apply (spelled_settled _ _ S1)|]. eapply settled_trans; [exact A1|exact K1].
  - eapply settled_trans; [apply (spelled_settled _ _ S2)|]. eapply settled_trans; [exact A2|exact K2].
Qed.
Lemma copies_reach : forall order g1 g2 root h1 h2 rs, rearranges order -> tidy g1 -> tidy g2 -> (forall z, root = Some z -> tidy z) ->
  harmonize_copies order g1 g2 root = Ok (h1, h2, rs) -> lgr_reachable h1 /\ lgr_reachable h2.
Proof.
  intros order g1 g2 root h1 h2 rs Po T1 T2 Tz E. unfold harmonize_copies in E.
  destruct (expanded_ok g1 T1) as [e1 [E1 S1]]. destruct (expanded_ok g2 T2) as [e2 [E2 S2]]. rewrite E1, E2 in E. cbn [finished bind] in E.
  assert (Done : forall a b h k q, spelled_out a a -> spelled_out b b -> harmonize_expanded order a b = Ok (h, k, q) -> lgr_reachable h /\ lgr_reachable k).
  { intros a b h k [qa qb] Sa Sb Eh. destruct (expanded_pair order a b a b h k qa qb Po Sa Sb (conj eq_refl eq_refl) (conj eq_refl eq_refl) Eh) as [X [Y _]].
    split; [apply X|apply Y]. }
  destruct root as [z|].
  2:{ destruct rs as [ra rb]. exact (Done e1 e2 h1 h2 _ (already_spelled _ (spelled_expanded _ _ S1)) (already_spelled _ (spelled_expanded _ _ S2)) E). }
  specialize (Tz z eq_refl).
  destruct (harmonize_two order e1 z) as [[[m1 y1] [a1 b1]]|e] eqn:H1; [|discriminate]. cbn [bind fst] in E.
  destruct (harmonize_two order e2 z) as [[[m2 y2] [a2 b2]]|e] eqn:H2; [|discriminate]. cbn [bind fst] in E.
  destruct (harmonize_two_ok order e1 z m1 y1 a1 b1 Po (tidy_expand _ _ _ T1 E1) Tz H1) as [X1 _].
  destruct (harmonize_two_ok order e2 z m2 y2 a2 b2 Po (tidy_expand _ _ _ T2 E2) Tz H2) as [X2 _].
  exact (Done m1 m2 h1 h2 _ (already_spelled _ X1) (already_spelled _ X2) E).
Qed.

Theorem populate_verdicts : forall g g' o label, lgr_reachable g -> populate g = (g', o) -> avoids (lg_rep g) (lg_rep g') label ->
  verdict_kept (lg_rep g) (lg_rep g') label.
Proof.
  intros g g' o label Hre E A. apply verdicts; [apply lgr_reachable_rep; exact Hre|apply lgr_reachable_rep; apply (populate_respects g g' o Hre E)|apply (populate_settled g g' o Hre E)|exact A].
Qed.
Theorem harmonize_verdicts : forall order g1 g2 root h1 h2 rs label, rearranges order -> tidy g1 -> tidy g2 -> (forall z, root = Some z -> tidy z) ->
  harmonize order g1 g2 root = Ok (h1, h2, rs) ->
  (avoids (lg_rep g1) (lg_rep h1) label -> verdict_kept (lg_rep g1) (lg_rep h1) label) /\
  (avoids (lg_rep g2) (lg_rep h2) label -> verdict_kept (lg_rep g2) (lg_rep h2) label).
Proof.
  intros order g1 g2 root h1 h2 rs label Po T1 T2 Tz E. unfold harmonize in E.
  destruct (copies_settled _ _ _ _ _ _ _ Po (tidy_copy _ T1) (tidy_copy _ T2) (tidy_copies root Tz) E) as [S1 S2].
  destruct (copies_reach _ _ _ _ _ _ _ Po (tidy_copy _ T1) (tidy_copy _ T2) (tidy_copies root Tz) E) as [R1 R2].
  split; intro A; apply verdicts; try (apply lgr_reachable_rep; assumption || apply tidy_reachable; assumption); try assumption; apply lgr_reachable_rep; apply tidy_reachable; assumption.
Qed.
