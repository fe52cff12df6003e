From Coq Require Import Sorting.Sorted Permutation.
From Verif Require Import Base BaseFacts CharModel RepSpec RepProofs RangeProofs VariantProofs IterProofs UtilsModel UtilsSpec UtilsProofs RefModel RefProofs LgrModel LgrSpec LgrProofs LgrReach LgrRange LgrInv LgrTags LgrRefs LgrMirror Rfc7940Model Rfc7940Spec Rfc7940Proofs VarSetSpec VarSetProofs ValidateModel ValidateSpec.
Open Scope string_scope.
Open Scope list_scope.

(** ** Generic loop *)
Lemma check_loop_spec : forall A I (f : A -> res (bool * list I * list report)) l,
  (forall x, In x l -> exists y, f x = Ok y) ->
  exists rs ok is, check_loop f l = (rs, Ok (ok, is)) /\
    (ok = true <-> forall x, In x l -> exists is' rs', f x = Ok (true, is', rs')) /\
    (forall i, In i is <-> exists x ok' is' rs', In x l /\ f x = Ok (ok', is', rs') /\ In i is') /\
    (forall p, In p rs <-> exists x ok' is' rs', In x l /\ f x = Ok (ok', is', rs') /\ In p rs').
Proof.
  intros A I f l. induction l as [|x l IH]; intros Hf; cbn [check_loop].
  - exists [], true, []. split; [reflexivity|]. split; [split; [intros _ x []|auto]|].
    split; intros i; split; try contradiction; intros [x [a [b [c [H _]]]]]; contradiction.
  - destruct (Hf x (or_introl eq_refl)) as [[[ok1 is1] rs1] E]. rewrite E.
    destruct IH as [rs [ok [is [E2 [H1 [H2 H3]]]]]]; [intros y Hy; apply Hf; right; exact Hy|]. rewrite E2. cbn [bind].
    exists (rs1 ++ rs), (ok1 && ok)%bool, (is1 ++ is). split; [reflexivity|]. split; [|split].
    + rewrite andb_true_iff. split.
      * intros [Ha Hb] y [Hy|Hy]; [subst; eauto|]. apply H1; auto.
      * intro H. split; [|apply H1; intros y Hy; apply H; right; exact Hy].
        destruct (H x (or_introl eq_refl)) as [is' [rs' H']]. rewrite E in H'. injection H' as H' _ _. exact H'.
    + intro i. rewrite in_app_iff, H2. split.
      * intros [Hi|[y [a [b [c [Hy Hi]]]]]]; [exists x, ok1, is1, rs1; split; [left; reflexivity|auto]|].
        exists y, a, b, c. split; [right; exact Hy|exact Hi].
      * intros [y [a [b [c [[Hy|Hy] [Hi Hj]]]]]]; [subst y; rewrite E in Hi; injection Hi as _ Hi _; subst; auto|].
        right. exists y, a, b, c. auto.
    + intro i. rewrite in_app_iff, H3. split.
      * intros [Hi|[y [a [b [c [Hy Hi]]]]]]; [exists x, ok1, is1, rs1; split; [left; reflexivity|auto]|].
        exists y, a, b, c. split; [right; exact Hy|exact Hi].
      * intros [y [a [b [c [[Hy|Hy] [Hi Hj]]]]]]; [subst y; rewrite E in Hi; injection Hi as _ _ Hi; subst; auto|].
        right. exists y, a, b, c. auto.
Qed.

Lemma mapping_lk : forall r a b v, mapping r a b v <-> exists ch, lk r a = Some ch /\ In v (get_variants ch) /\ v_cp v = b.
Proof. intros. unfold mapping. split; intros [ch H]; exists ch; [rewrite <- lookup_lk|rewrite lookup_lk]; exact H. Qed.
Lemma has_target_edge : forall r a b, has_target r a b <-> edge r true a b.
Proof.
  intros r a b. unfold has_target, mapping, edge. split.
  - intros [v [ch [H1 [H2 H3]]]]. exists ch, v. auto.
  - intros [ch [v [H1 [H2 [H3 _]]]]]. exists v, ch. auto.
Qed.
Lemma range_get_variants : forall ch, wf_char ch -> is_range ch = true -> get_variants ch = [].
Proof.
  intros ch Hw Hr. unfold is_range in Hr. destruct (ch_kind ch) eqn:E; try discriminate.
  unfold wf_char in Hw. unfold get_variants.
  assert (Hv : ch_variants ch = []).
  { destruct Hw as [_ Hw]. rewrite E in Hw. tauto. }
  rewrite Hv. reflexivity.
Qed.
Lemma variant_pairs_In : forall g ch v, wf_rep (lg_rep g) ->
  (In (ch, v) (variant_pairs g) <-> lk (lg_rep g) (ch_cp ch) = Some ch /\ In v (get_variants ch)).
Proof.
  intros g ch v Hwf. unfold variant_pairs. rewrite in_flat_map.
  destruct (iter_general _ Hwf) as [_ [_ [Hsub Hnr]]]. split.
  - intros [a [Ha Hp]]. destruct (is_range a) eqn:E; [contradiction|]. apply in_map_iff in Hp. destruct Hp as [w [Hw Hin]].
    injection Hw as H1 H2. subst. apply Hsub in Ha. split; [|exact Hin]. apply in_all_chars_lk; auto.
  - intros [Hl Hv]. exists ch. assert (Hr : is_range ch = false).
    { destruct (is_range ch) eqn:E; auto. rewrite (range_get_variants ch) in Hv; [contradiction|eapply lk_wf; eauto|exact E]. }
    split; [apply Hnr; [eapply lk_in_all; eauto|exact Hr]|]. rewrite Hr. apply in_map_iff. eauto.
Qed.

(** ** Symmetry *)
Section Sym.
  Variable g : lgr.
  Hypothesis Hre : lgr_reachable g.
  Let r := lg_rep g.

  Lemma get_variants_present : forall b ch, lk r b = Some ch -> lgr_get_variants g b = Ok (get_variants ch).
  Proof.
    intros b ch H. assert (Hne : b <> []) by (destruct b; [discriminate|discriminate]). unfold lgr_get_variants.
    rewrite (accepting_convert g b (reachable_accepting g Hre) Hne) by (fold r; congruence). cbn [bind].
    unfold rep_get_variants. rewrite get_char_lk by exact Hne. fold r. rewrite H. reflexivity.
  Qed.

  (** What one pair reports. *)
  Lemma sym_pair_spec : forall ign ch v, lk r (ch_cp ch) = Some ch -> In v (get_variants ch) ->
    exists ok is rs, sym_pair g ign (ch, v) = Ok (ok, is, rs) /\
      (ok = true <-> is = []) /\
      (forall i, In i is <-> exists p, i = (ch, v, p) /\ sym_violation r ign (ch_cp ch) v p) /\
      (forall q, In q rs <-> exists p, sym_violation r ign (ch_cp ch) v p /\
         q = (match p with SymNotInRepertoire | SymMissing => "basic_symmetry" | _ => "strict_symmetry" end, false)).
  Proof.
    intros ign ch v Hl Hv. pose proof (lgr_reachable_wf g Hre) as Hwf. fold r in Hwf.
    assert (Hne : v_cp v <> []) by (eapply variant_cp_nonempty; [eapply lk_wf; eauto|exact Hv]).
    unfold sym_pair. rewrite rep_contains_lk by exact Hne. fold r. destruct (lk r (v_cp v)) as [b|] eqn:Eb; cbn [bind negb].
    2:{ exists false. eexists. eexists. split; [reflexivity|]. split; [split; discriminate|].
        assert (Hu : forall p, sym_violation r ign (ch_cp ch) v p <-> p = SymNotInRepertoire).
        { intro p. split.
          - assert (Hno : ~ has_target r (v_cp v) (ch_cp ch)).
            { intros [w Hw]. apply mapping_lk in Hw. destruct Hw as [c' [Hc _]]. congruence. }
            intro H. inversion H; subst; auto; try contradiction. exfalso. rewrite lookup_lk in H0. congruence.
          - intro; subst. constructor. rewrite lookup_lk. exact Eb. }
        split; intro i; split.
        - intros [Hi|[]]. exists SymNotInRepertoire. rewrite Hu. auto.
        - intros [p [Hi Hp]]. apply Hu in Hp. subst. left. reflexivity.
        - intros [Hi|[]]. exists SymNotInRepertoire. rewrite Hu. auto.
        - intros [p [Hp Hi]]. apply Hu in Hp. subst. left. reflexivity. }
    rewrite (get_variants_present _ _ Eb). cbn [bind].
    set (rev := filter (fun v0 => cps_eqb (ch_cp ch) (v_cp v0)) (get_variants b)).
    assert (Hrev : forall w, In w rev <-> mapping r (v_cp v) (ch_cp ch) w).
    { intro w. unfold rev. rewrite filter_In, cps_eqb_eq, mapping_lk. split.
      - intros [H1 H2]. exists b. auto.
      - intros [b' [H1 [H2 H3]]]. rewrite Eb in H1. injection H1 as H1. subst b'. auto. }
    assert (Hpres : lookup r (v_cp v) <> None) by (rewrite lookup_lk; congruence).
    assert (Hrevt : rev <> [] <-> has_target r (v_cp v) (ch_cp ch)).
    { unfold has_target. destruct rev as [|w l].
      - split; [intro H; contradiction|]. intros [w Hw]. apply Hrev in Hw. contradiction.
      - split; [intros _; exists w; apply Hrev; left; reflexivity|discriminate]. }
    assert (Hw : memb ostring_eqb (v_when v) (map v_when rev) = true <-> exists w, mapping r (v_cp v) (ch_cp ch) w /\ v_when w = v_when v).
    { rewrite (memb_In _ _ ostring_eqb_eq), in_map_iff. split; intros [w [H1 H2]]; exists w; rewrite ?Hrev in *; auto. }
    assert (Hnw : memb ostring_eqb (v_not_when v) (map v_not_when rev) = true <-> exists w, mapping r (v_cp v) (ch_cp ch) w /\ v_not_when w = v_not_when v).
    { rewrite (memb_In _ _ ostring_eqb_eq), in_map_iff. split; intros [w [H1 H2]]; exists w; rewrite ?Hrev in *; auto. }
    destruct rev as [|w0 l] eqn:Erev.
    { exists false. eexists. eexists. split; [reflexivity|]. split; [split; discriminate|].
      assert (Hno : ~ has_target r (v_cp v) (ch_cp ch)) by (intro H; apply Hrevt in H; contradiction).
      assert (Hu : forall p, sym_violation r ign (ch_cp ch) v p <-> p = SymMissing).
      { intro p. split; [intro H; inversion H; subst; auto; contradiction|]. intro; subst. constructor; auto. }
      split; intro i; split.
      - intros [Hi|[]]. exists SymMissing. rewrite Hu. auto.
      - intros [p [Hi Hp]]. apply Hu in Hp. subst. left. reflexivity.
      - intros [Hi|[]]. exists SymMissing. rewrite Hu. auto.
      - intros [p [Hp Hi]]. apply Hu in Hp. subst. left. reflexivity. }
    assert (Hyes : has_target r (v_cp v) (ch_cp ch)) by (apply Hrevt; discriminate).
    rewrite <- Erev in *. clear w0 l Erev.
    assert (Hnone : forall P : Prop, (forall p, ~ sym_violation r ign (ch_cp ch) v p) ->
      exists ok is rs, Ok (true, @nil (char * variant * sym_problem), @nil report) = Ok (ok, is, rs) /\
      (ok = true <-> is = []) /\
      (forall i, In i is <-> exists p, i = (ch, v, p) /\ sym_violation r ign (ch_cp ch) v p) /\
      (forall q, In q rs <-> exists p, sym_violation r ign (ch_cp ch) v p /\
         q = (match p with SymNotInRepertoire | SymMissing => "basic_symmetry" | _ => "strict_symmetry" end, false))).
    { intros _ H. exists true, [], []. split; [reflexivity|]. split; [tauto|].
      split; intro i; split; try contradiction; intros [p Hp]; exfalso; eapply H; apply Hp. }
    destruct ign.
    { apply (Hnone True). intros p H. inversion H; subst; try contradiction; try discriminate. }
    destruct (truthy (v_when v) && negb (memb ostring_eqb (v_when v) (map v_when rev)))%bool eqn:E1.
    { apply andb_true_iff in E1. destruct E1 as [E1 E2]. apply negb_true_iff in E2.
      assert (Hno : forall w, mapping r (v_cp v) (ch_cp ch) w -> v_when w <> v_when v).
      { intros w H1 H2. assert (memb ostring_eqb (v_when v) (map v_when rev) = true) by (apply Hw; eauto). congruence. }
      exists false. eexists. eexists. split; [reflexivity|]. split; [split; discriminate|].
      assert (Hu : forall p, sym_violation r false (ch_cp ch) v p <-> p = SymWhen (v_when v)).
      { intro p. split; [|intro; subst; constructor; auto]. intro H; inversion H; subst; auto; try contradiction.
        destruct (H2 E1) as [w [H6 H7]]. exfalso. eapply Hno; eauto. }
      split; intro i; split.
      - intros [Hi|[]]. exists (SymWhen (v_when v)). rewrite Hu. auto.
      - intros [p [Hi Hp]]. apply Hu in Hp. subst. left. reflexivity.
      - intros [Hi|[]]. exists (SymWhen (v_when v)). rewrite Hu. auto.
      - intros [p [Hp Hi]]. apply Hu in Hp. subst. left. reflexivity. }
    assert (Hwok : truthy (v_when v) = true -> exists w, mapping r (v_cp v) (ch_cp ch) w /\ v_when w = v_when v).
    { intro Ht. rewrite Ht in E1. cbn in E1. apply negb_false_iff in E1. apply Hw. exact E1. }
    destruct (truthy (v_not_when v) && negb (memb ostring_eqb (v_not_when v) (map v_not_when rev)))%bool eqn:E3.
    { apply andb_true_iff in E3. destruct E3 as [E3 E4]. apply negb_true_iff in E4.
      assert (Hno : forall w, mapping r (v_cp v) (ch_cp ch) w -> v_not_when w <> v_not_when v).
      { intros w H1 H2. assert (memb ostring_eqb (v_not_when v) (map v_not_when rev) = true) by (apply Hnw; eauto). congruence. }
      exists false. eexists. eexists. split; [reflexivity|]. split; [split; discriminate|].
      assert (Hu : forall p, sym_violation r false (ch_cp ch) v p <-> p = SymNotWhen (v_not_when v)).
      { intro p. split; [|intro; subst; constructor; auto]. intro H; inversion H; subst; auto; try contradiction.
        destruct (Hwok H2) as [w [H6 H7]]. exfalso. eapply H3; eauto. }
      split; intro i; split.
      - intros [Hi|[]]. exists (SymNotWhen (v_not_when v)). rewrite Hu. auto.
      - intros [p [Hi Hp]]. apply Hu in Hp. subst. left. reflexivity.
      - intros [Hi|[]]. exists (SymNotWhen (v_not_when v)). rewrite Hu. auto.
      - intros [p [Hp Hi]]. apply Hu in Hp. subst. left. reflexivity. }
    apply (Hnone True). intros p H. inversion H; subst; try contradiction.
    - destruct (Hwok H2) as [w [H6 H7]]. eapply H3; eauto.
    - rewrite H3 in E3. cbn in E3. apply negb_false_iff, Hnw in E3. destruct E3 as [w [H6 H7]]. eapply H4; eauto.
  Qed.

  Theorem check_symmetry_issues : forall ign,
    exists rs ok issues, check_symmetry g ign = (rs, Ok (ok, issues)) /\
      (ok = true <-> issues = []) /\
      (forall ch v p, In (ch, v, p) issues <->
         lookup r (ch_cp ch) = Some ch /\ In v (get_variants ch) /\ sym_violation r ign (ch_cp ch) v p) /\
      executed rs "basic_symmetry" /\ executed rs "strict_symmetry" /\
      (forall t, failed rs t <-> exists ch v p, In (ch, v, p) issues /\
          t = match p with SymNotInRepertoire | SymMissing => "basic_symmetry" | _ => "strict_symmetry" end).
  Proof.
    intro ign. pose proof (lgr_reachable_wf g Hre) as Hwf. fold r in Hwf.
    assert (Hp : forall x, In x (variant_pairs g) -> lk r (ch_cp (fst x)) = Some (fst x) /\ In (snd x) (get_variants (fst x))).
    { intros [ch v] Hx. apply variant_pairs_In in Hx; auto. }
    destruct (check_loop_spec _ _ (sym_pair g ign) (variant_pairs g)) as [rs [ok [is [E [H1 [H2 H3]]]]]].
    { intros [ch v] Hx. destruct (Hp _ Hx) as [Ha Hb]. destruct (sym_pair_spec ign ch v Ha Hb) as [o [i [s [Hs _]]]]. eauto. }
    assert (Hiss : forall ch v p, In (ch, v, p) is <-> lk r (ch_cp ch) = Some ch /\ In v (get_variants ch) /\ sym_violation r ign (ch_cp ch) v p).
    { intros ch v p. rewrite H2. split.
      - intros [[c w] [ok' [is' [rs' [Hx [Hs Hi]]]]]]. destruct (Hp _ Hx) as [Ha Hb]. cbn [fst snd] in *.
        destruct (sym_pair_spec ign c w Ha Hb) as [o [i [s [Hs' [_ [Hi' _]]]]]]. rewrite Hs in Hs'. injection Hs' as S1 S2 S3. subst.
        apply Hi' in Hi. destruct Hi as [q [Hq1 Hq2]]. injection Hq1 as Q1 Q2 Q3. subst. auto.
      - intros [Ha [Hb Hv]]. destruct (sym_pair_spec ign ch v Ha Hb) as [o [i [s [Hs [_ [Hi _]]]]]].
        exists (ch, v), o, i, s. split; [apply variant_pairs_In; auto|]. split; [exact Hs|]. apply Hi. eauto. }
    unfold check_symmetry. rewrite E. eexists. exists ok, is. split; [reflexivity|]. split; [|split; [|split; [|split]]].
    - rewrite H1. split.
      + intro H. destruct is as [|[[ch v] p] is0]; auto. exfalso.
        assert (Hin : In (ch, v, p) ((ch, v, p) :: is0)) by (left; reflexivity). apply H2 in Hin.
        destruct Hin as [x [ok' [is' [rs' [Hx [Hs Hi]]]]]]. destruct (H x Hx) as [is2 [rs2 Hs2]]. rewrite Hs in Hs2.
        injection Hs2 as S1 S2 S3. subst. destruct x as [c w]. destruct (Hp _ Hx) as [Ha Hb].
        destruct (sym_pair_spec ign c w Ha Hb) as [o [i [s [Hs' [Ho _]]]]]. cbn [fst snd] in *. rewrite Hs in Hs'. injection Hs' as S1 S2 S3. subst.
        destruct Ho as [Ho _]. rewrite (Ho eq_refl) in Hi. contradiction.
      + intros He [ch v] Hx. destruct (Hp _ Hx) as [Ha Hb]. destruct (sym_pair_spec ign ch v Ha Hb) as [o [i [s [Hs [Ho [Hi _]]]]]].
        cbn [fst snd] in *. destruct i as [|i0 il]; [rewrite (proj2 Ho eq_refl) in Hs; eauto|]. exfalso.
        assert (Hin : In i0 is) by (apply H2; exists (ch, v), o, (i0 :: il), s; split; [exact Hx|]; split; [exact Hs|left; reflexivity]).
        rewrite He in Hin. contradiction.
    - intros ch v p. rewrite lookup_lk. apply Hiss.
    - exists true. apply in_or_app. right. left. reflexivity.
    - exists true. apply in_or_app. right. right. left. reflexivity.
    - intro t. unfold failed. rewrite in_app_iff. split.
      + intros [H|[H|[H|[]]]]; try discriminate. apply H3 in H. destruct H as [[c w] [ok' [is' [rs' [Hx [Hs Hi]]]]]].
        destruct (Hp _ Hx) as [Ha Hb]. cbn [fst snd] in *.
        destruct (sym_pair_spec ign c w Ha Hb) as [o [i [s [Hs' [_ [_ Hq]]]]]]. rewrite Hs in Hs'. injection Hs' as S1 S2 S3. subst.
        apply Hq in Hi. destruct Hi as [p [Hv Hp']]. injection Hp' as Hp'. exists c, w, p. split; [|exact Hp']. apply Hiss. auto.
      + intros [ch [v [p [Hin Ht]]]]. left. apply Hiss in Hin. destruct Hin as [Ha [Hb Hv]].
        destruct (sym_pair_spec ign ch v Ha Hb) as [o [i [s [Hs [_ [_ Hq]]]]]]. apply H3. exists (ch, v), o, i, s.
        split; [apply variant_pairs_In; auto|]. split; [exact Hs|]. apply Hq. exists p. subst t. auto.
  Qed.
End Sym.

Lemma has_target_dec : forall r a b, has_target r a b \/ ~ has_target r a b.
Proof.
  intros r a b. destruct (lk r a) as [ch|] eqn:E.
  - destruct (memb cps_eqb b (map v_cp (get_variants ch))) eqn:M.
    + left. apply (memb_In _ _ cps_eqb_eq), in_map_iff in M. destruct M as [v [H1 H2]]. exists v. apply mapping_lk. eauto.
    + right. intros [v H]. apply mapping_lk in H. destruct H as [c [H1 [H2 H3]]]. rewrite E in H1. injection H1 as H1. subst c.
      assert (memb cps_eqb b (map v_cp (get_variants ch)) = true); [|congruence].
      apply (memb_In _ _ cps_eqb_eq), in_map_iff. eauto.
  - right. intros [v H]. apply mapping_lk in H. destruct H as [c [H1 _]]. congruence.
Qed.

(** The verdict with [ignore_rules]. *)
Theorem check_symmetry_decides : forall g, lgr_reachable g ->
  (exists rs issues, check_symmetry g true = (rs, Ok (true, issues))) <-> symmetric (lg_rep g).
Proof.
  intros g Hre. destruct (check_symmetry_issues g Hre true) as [rs [ok [is [E [H1 [H2 _]]]]]]. split.
  - intros [rs' [is' E']] a b [v Hv]. rewrite E in E'. injection E' as _ E' _. apply H1 in E'. subst is.
    destruct Hv as [ch [Ha [Hb Hc]]]. pose proof (lk_cp (lg_rep g) a ch) as Hcp. rewrite <- lookup_lk in Hcp. specialize (Hcp Ha).
    assert (Hn : forall p, ~ sym_violation (lg_rep g) true a v p).
    { intros p Hp. apply (H2 ch v p). rewrite Hcp. auto. }
    assert (Hpr : lookup (lg_rep g) b <> None).
    { intro Hno. eapply Hn. apply SV_absent. rewrite Hc. exact Hno. }
    split; [exact Hpr|]. destruct (has_target_dec (lg_rep g) b a) as [H|H]; auto. exfalso. eapply Hn. apply SV_missing; rewrite Hc; assumption.
  - intro Hs. exists rs, is. rewrite E. assert (Hi : is = []).
    { destruct is as [|[[ch v] p] is0]; auto. exfalso. destruct (proj1 (H2 ch v p) (or_introl eq_refl)) as [Ha [Hb Hp]].
      destruct (Hs (ch_cp ch) (v_cp v)) as [Hc Hd]; [exists v, ch; auto|].
      inversion Hp; subst; try contradiction; try discriminate. }
    rewrite (proj2 H1 Hi). reflexivity.
Qed.
(** The verdict with the rules. *)
Theorem check_symmetry_decides_rules : forall g, lgr_reachable g ->
  (exists rs issues, check_symmetry g false = (rs, Ok (true, issues))) <-> symmetric (lg_rep g) /\ rules_mirrored (lg_rep g).
Proof.
  intros g Hre. destruct (check_symmetry_issues g Hre false) as [rs [ok [is [E [H1 [H2 _]]]]]]. split.
  - intros [rs' [is' E']]. rewrite E in E'. injection E' as _ E' _. apply H1 in E'. subst is.
    assert (Hn : forall a b v p, mapping (lg_rep g) a b v -> ~ sym_violation (lg_rep g) false a v p).
    { intros a b v p [ch [Ha [Hb Hc]]] Hp. pose proof (lk_cp (lg_rep g) a ch) as Hcp. rewrite <- lookup_lk in Hcp. specialize (Hcp Ha).
      apply (H2 ch v p). rewrite Hcp. auto. }
    assert (Hs : symmetric (lg_rep g)).
    { intros a b [v Hv]. pose proof Hv as Hv'. destruct Hv' as [ch [Ha [Hb Hc]]].
      assert (Hpr : lookup (lg_rep g) b <> None).
      { intro Hno. eapply Hn; [exact Hv|]. apply SV_absent. rewrite Hc. exact Hno. }
      split; [exact Hpr|]. destruct (has_target_dec (lg_rep g) b a) as [H|H]; auto. exfalso.
      eapply Hn; [exact Hv|]. apply SV_missing; rewrite Hc; assumption. }
    split; [exact Hs|]. intros a b v Hv. pose proof Hv as Hv'. destruct Hv' as [ch [Ha [Hb Hc]]].
    destruct (Hs a b) as [Hpr [w0 Hw0]]; [exists v; exact Hv|].
    assert (Hdec : forall (f : variant -> option string), (exists w, mapping (lg_rep g) b a w /\ f w = f v) \/ (forall w, mapping (lg_rep g) b a w -> f w <> f v)).
    { intro f. destruct Hw0 as [cb [K1 _]].
      destruct (existsb (fun w => cps_eqb (v_cp w) a && ostring_eqb (f w) (f v))%bool (get_variants cb)) eqn:X.
      - left. apply existsb_exists in X. destruct X as [w [X1 X2]]. apply andb_true_iff in X2. rewrite cps_eqb_eq, ostring_eqb_eq in X2.
        exists w. split; [exists cb; tauto|tauto].
      - right. intros w [cb' [K2 [K3 K4]]] Hf. rewrite K1 in K2. injection K2 as K2. subst cb'.
        assert (existsb (fun w => cps_eqb (v_cp w) a && ostring_eqb (f w) (f v))%bool (get_variants cb) = true); [|congruence].
        apply existsb_exists. exists w. split; [exact K3|]. apply andb_true_iff. rewrite cps_eqb_eq, ostring_eqb_eq. auto. }
    assert (Hw : truthy (v_when v) = true -> exists w, mapping (lg_rep g) b a w /\ v_when w = v_when v).
    { intro Ht. destruct (Hdec v_when) as [H|H]; [exact H|]. exfalso. eapply Hn; [exact Hv|]. apply SV_when; rewrite ?Hc; auto. exists w0. exact Hw0. }
    split; [exact Hw|]. intro Ht. destruct (Hdec v_not_when) as [H|H]; [exact H|]. exfalso. eapply Hn; [exact Hv|].
    apply SV_not_when; rewrite ?Hc; auto. exists w0. exact Hw0.
  - intros [Hs Hr]. exists rs, is. rewrite E. assert (Hi : is = []).
    { destruct is as [|[[ch v] p] is0]; auto. exfalso. destruct (proj1 (H2 ch v p) (or_introl eq_refl)) as [Ha [Hb Hp]].
      assert (Hm : mapping (lg_rep g) (ch_cp ch) (v_cp v) v) by (exists ch; auto).
      destruct (Hs (ch_cp ch) (v_cp v)) as [Hc Hd]; [exists v; exact Hm|].
      destruct (Hr _ _ _ Hm) as [Hw Hnw].
      inversion Hp; subst; try contradiction.
      - destruct (Hw H3) as [w [W1 W2]]. eapply H4; eauto.
      - destruct (Hnw H4) as [w [W1 W2]]. eapply H5; eauto. }
    rewrite (proj2 H1 Hi). reflexivity.
Qed.
(** The recorded outcomes. *)
Theorem check_symmetry_recorded : forall g ign, lgr_reachable g ->
  let t := apply_reports [] (fst (check_symmetry g ign)) in
  (dget String.eqb "basic_symmetry" t = Some true <-> symmetric (lg_rep g)) /\
  dget String.eqb "basic_symmetry" t <> None /\ dget String.eqb "strict_symmetry" t <> None.
Proof.
  intros g ign Hre t. destruct (check_symmetry_issues g Hre ign) as [rs [ok [is [E [H1 [H2 [H3 [H4 H5]]]]]]]].
  unfold t. rewrite E. cbn [fst].
  destruct (apply_get_empty rs "basic_symmetry") as [A1 [B1 C1]]. destruct (apply_get_empty rs "strict_symmetry") as [A2 _].
  split; [|split; [rewrite A1; tauto|rewrite A2; tauto]].
  rewrite C1. rewrite H5. split.
  - intros [_ Hn] a b [v Hv]. destruct Hv as [ch [Ha [Hb Hc]]]. pose proof (lk_cp (lg_rep g) a ch) as Hcp. rewrite <- lookup_lk in Hcp. specialize (Hcp Ha).
    assert (Hpr : lookup (lg_rep g) b <> None).
    { intro Hno. apply Hn. exists ch, v, SymNotInRepertoire. split; [|reflexivity]. apply H2. rewrite Hcp. split; auto. split; auto. apply SV_absent. rewrite Hc. exact Hno. }
    split; [exact Hpr|]. destruct (has_target_dec (lg_rep g) b a) as [H|H]; auto. exfalso. apply Hn. exists ch, v, SymMissing. split; [|reflexivity].
    apply H2. rewrite Hcp. split; auto. split; auto. apply SV_missing; rewrite Hc; assumption.
  - intro Hs. split; [exact H3|]. intros [ch [v [p [Hi Ht]]]]. apply H2 in Hi. destruct Hi as [Ha [Hb Hp]].
    destruct (Hs (ch_cp ch) (v_cp v)) as [Hc Hd]; [exists v, ch; auto|]. inversion Hp; subst; try contradiction; discriminate.
Qed.

(** ** Transitivity *)
(** Variant targets never carry a code point the LGR refuses. *)
Definition vacc (g : lgr) : Prop :=
  lg_raise g = true -> forall c ch v x, lk (lg_rep g) c = Some ch -> In v (get_variants ch) -> In x (v_cp v) -> ~ idna_invalid g x.
Definition vaccP (P : N -> Prop) (ch : char) : Prop := forall v x, In v (get_variants ch) -> In x (v_cp v) -> P x.
Lemma vaccP_copy : forall P ch y k, vaccP P ch ->
  vaccP P (mkChar [y] k (ch_comment ch) (ch_refs ch) (ch_tags ch) (ch_when ch) (ch_not_when ch) []).
Proof. intros P ch y k H v x Hv. contradiction. Qed.
Lemma vaccP_delv : forall P ch ch' v w nw b, wf_char ch -> vaccP P ch -> char_del_variant ch v w nw = Ok (ch', b) -> vaccP P ch'.
Proof.
  intros P ch ch' v w nw b Hwf H E. destruct (char_del_variant_rest _ _ _ _ _ _ E) as [_ [_ [_ [Hr Hne]]]].
  destruct (del_variant_cases ch v w nw Hwf Hr Hne) as [c2 [b2 [E2 [_ [_ E3]]]]]. rewrite E in E2. injection E2 as E2 E4. subst c2 b2.
  intros u x Hu. apply E3 in Hu. apply H. tauto.
Qed.
Lemma vaccP_addv : forall P ch ch' v, wf_char ch -> vaccP P ch -> (forall x, In x (v_cp v) -> P x) -> char_add_variant ch v = Ok ch' -> vaccP P ch'.
Proof.
  intros P ch ch' v Hwf H Hv E. destruct (char_add_variant_rest _ _ _ E) as [_ [_ [_ [Hr Hne]]]].
  destruct (add_variant_cases ch v Hwf Hr Hne) as [[_ E1]|[_ [c2 [E2 E3]]]]; [congruence|].
  rewrite E in E2. injection E2 as E2. subst c2. intros u x Hu. apply E3 in Hu. destruct Hu as [Hu|Hu]; [subst; apply Hv|apply H; exact Hu].
Qed.
Definition acc (g : lgr) (x : N) : Prop := lg_raise g = true -> ~ idna_invalid g x.
Lemma convert_acc : forall g c c', check_convert g c = Ok c' -> forall x, In x c -> acc g x.
Proof.
  intros g c c' H x Hx Hr Hi. destruct (check_convert_cases g c) as [[e [H1 _]]|[_ [_ [_ H2]]]]; [congruence|].
  unfold chk_idna in H2. destruct Hi as [d [Hd Hv]].
  destruct (find_first_such N (fun x => negb (db_idna_valid d x)) (idna_invalid g) (fun x => idna_invalid_iff g d x Hd) c) as [[y [_ Hy]]|[_ Hn]].
  - eapply H2. split; [exact Hr|]. exists y. split; [exact Hy|reflexivity].
  - apply (Hn x Hx). exists d. auto.
Qed.
Lemma step_same_acc : forall g o x, acc g x -> acc (fst (lgr_step g o)) x.
Proof.
  intros g o x H. assert (D : o = LCopy \/ o <> LCopy) by (destruct o; [right; discriminate..|left; reflexivity]).
  destruct D as [D|D]; [subst; intros _ [d [Hd _]]; discriminate|].
  destruct (step_db g o D) as [H1 H2]. cbv zeta in *. unfold acc, idna_invalid in *. rewrite H1, H2. exact H.
Qed.
Lemma vacc_step : forall g o, wf_rep (lg_rep g) -> allch (vaccP (acc g)) (lg_rep g) -> allch (vaccP (acc g)) (lg_rep (fst (lgr_step g o))).
Proof.
  intros g o Hwf Ha.
  destruct o as [c cm rf tg w nw vr ov fo|c|f l cm rf tg w nw vr ov fo|f l|f l| |c v ty w nw cm rf vr ov fo|c v w nw|l cm rf tg|v c id|ref|t|].
  11: { unfold lgr_step, lgr_del_reference. destruct (rm_del _ ref). cbn. unfold rep_del_reference. 
        eapply allch_map; [reflexivity|exact Hwf| |exact Ha]. intros ch Hw H v x Hv. apply get_variants_del_ref in Hv; [|exact Hw].
        destruct Hv as [u [Hu Hv]]. subst v. cbn [variant_del_ref v_cp]. apply (H u). exact Hu. }
  11: { unfold lgr_step, lgr_del_tag. cbn. unfold rep_del_tag. eapply allch_map; [reflexivity|exact Hwf| |exact Ha].
        intros ch _ H. exact H. }
  7: { destruct (check_convert g v) as [v1|e] eqn:Ev.
       - apply (allch_step (vaccP (acc g)) (vaccP_copy _) (vaccP_delv _) (fun _ _ _ => True)) with (okv := fun v => forall x, In x (v_cp v) -> acc g x);
           [intros; intros u x Hu; contradiction|exact (vaccP_addv _)|exact Hwf|exact Ha|]. intros _. cbn. eapply convert_acc. exact Ev.
       - unfold lgr_step, lgr_add_variant. rewrite Ev. destruct (check_convert g c); exact Ha. }
  all: apply (allch_step (vaccP (acc g)) (vaccP_copy _) (vaccP_delv _) (fun _ _ _ => True)) with (okv := fun v => forall x, In x (v_cp v) -> acc g x);
    [intros; intros u x Hu; contradiction|exact (vaccP_addv _)|exact Hwf|exact Ha|]; cbn [op_ok]; auto.
Qed.
Lemma reachable_vacc : forall g, lgr_reachable g -> allch (vaccP (acc g)) (lg_rep g).
Proof.
  intros g [db [al [ops H]]]. subst g. assert (Hgen : forall ops g, lgr_reachable g -> allch (vaccP (acc g)) (lg_rep g) ->
    allch (vaccP (acc (fst (lgr_run g ops)))) (lg_rep (fst (lgr_run g ops)))).
  { clear. induction ops as [|o ops IH]; intros g Hre Ha; cbn [lgr_run]; [exact Ha|].
    pose proof (vacc_step g o (lgr_reachable_wf g Hre) Ha) as Hs. pose proof (lgr_reachable_step g o Hre) as Hre'. pose proof (step_same_acc g o) as Hacc.
    destruct (lgr_step g o) as [g1 x]. cbn [fst] in *. specialize (IH g1 Hre').
    destruct (lgr_run g1 ops) as [g2 xs]. cbn [fst] in *. apply IH. intros c ch Hc v y Hv Hy. apply Hacc. eapply Hs; eauto. }
  apply Hgen; [exists db, al, []; reflexivity|]. intros [|x c] ch H; discriminate.
Qed.
Lemma target_convert : forall g a ch v, lgr_reachable g -> lk (lg_rep g) a = Some ch -> In v (get_variants ch) -> check_convert g (v_cp v) = Ok (v_cp v).
Proof.
  intros g a ch v Hre Hl Hv. pose proof (lgr_reachable_wf g Hre) as Hwf.
  destruct (check_convert_cases g (v_cp v)) as [[e [_ [[H _]|[_ [H1 [x [H2 _]]]]]]]|[H _]]; [| |exact H].
  - exfalso. revert H. eapply variant_cp_nonempty; [eapply lk_wf; eauto|exact Hv].
  - exfalso. apply first_such_In in H2. destruct H2 as [H2 H3]. eapply (reachable_vacc g Hre); eauto.
Qed.

Section Trans.
  Variable g : lgr.
  Hypothesis Hre : lgr_reachable g.
  Let r := lg_rep g.

  Lemma trans_pair_spec : forall ch v, lk r (ch_cp ch) = Some ch -> In v (get_variants ch) ->
    exists ok is rs, trans_pair g (ch, v) = Ok (ok, is, rs) /\
      (ok = true <-> lk r (v_cp v) <> None /\ is = []) /\
      (forall d w, In (d, w) is <-> d = ch /\ mapping r (v_cp v) (v_cp w) w /\ v_cp w <> ch_cp ch /\ ~ has_target r (ch_cp ch) (v_cp w)) /\
      (forall q, In q rs <-> is <> [] /\ q = ("basic_transitivity", false)).
  Proof.
    intros ch v Hl Hv. pose proof (lgr_reachable_wf g Hre) as Hwf. fold r in Hwf.
    assert (Hne : v_cp v <> []) by (eapply variant_cp_nonempty; [eapply lk_wf; eauto|exact Hv]).
    unfold trans_pair, lgr_get_variants. rewrite (target_convert g (ch_cp ch) ch v Hre Hl Hv). cbn [bind].
    unfold rep_get_variants. rewrite get_char_lk by exact Hne. fold r. destruct (lk r (v_cp v)) as [b|] eqn:Eb; cbn [bind].
    - eexists. eexists. eexists. split; [reflexivity|].
      set (bad := filter _ (get_variants b)).
      assert (Hbad : forall w, In w bad <-> mapping r (v_cp v) (v_cp w) w /\ v_cp w <> ch_cp ch /\ ~ has_target r (ch_cp ch) (v_cp w)).
      { intro w. unfold bad. rewrite filter_In, andb_true_iff, !negb_true_iff, (memb_false _ _ cps_eqb_eq), mapping_lk. split.
        - intros [H1 [H2 H3]]. split; [exists b; auto|]. split; [intro E; rewrite E, cps_eqb_refl in H2; discriminate|].
          intros [u Hu]. apply mapping_lk in Hu. destruct Hu as [c' [U1 [U2 U3]]]. rewrite Hl in U1. injection U1 as U1. subst c'.
          apply H3. apply in_map_iff. eauto.
        - intros [[b' [H1 [H2 _]]] [H3 H4]]. rewrite Eb in H1. injection H1 as H1. subst b'. split; [exact H2|]. split.
          + destruct (cps_eqb (v_cp w) (ch_cp ch)) eqn:E; auto. apply cps_eqb_eq in E. contradiction.
          + intro Hi. apply in_map_iff in Hi. destruct Hi as [u [U1 U2]]. apply H4. exists u. apply mapping_lk. exists ch. auto. }
      split; [|split].
      + split; [|intros [_ H]; destruct bad; [reflexivity|discriminate]]. intro H. split; [congruence|]. destruct bad; [reflexivity|discriminate].
      + intros d w. rewrite in_map_iff. split.
        * intros [u [E Hu]]. injection E as E1 E2. subst. split; [reflexivity|]. apply Hbad. exact Hu.
        * intros [E H]. subst d. exists w. split; [reflexivity|]. apply Hbad. exact H.
      + intro q. rewrite in_map_iff. split.
        * intros [u [E Hu]]. subst q. split; [|reflexivity]. destruct bad; [contradiction|discriminate].
        * intros [H E]. subst q. destruct bad as [|u l]; [contradiction|]. exists u. split; [reflexivity|left; reflexivity].
    - exists false, [], []. split; [reflexivity|]. split; [split; [discriminate|intros [H _]; contradiction]|].
      split; [|intro q; split; [contradiction|intros [H _]; contradiction]].
      intros d w. split; [contradiction|]. intros [_ [H _]]. apply mapping_lk in H. destruct H as [c' [H _]]. congruence.
  Qed.

  Theorem check_transitivity_spec :
    exists rs ok issues, check_transitivity g = (rs, Ok (ok, issues)) /\
      (ok = true <-> transitive r) /\
      (forall ch w, In (ch, w) issues <-> lookup r (ch_cp ch) = Some ch /\
         exists b, has_target r (ch_cp ch) b /\ mapping r b (v_cp w) w /\ v_cp w <> ch_cp ch /\ ~ has_target r (ch_cp ch) (v_cp w)) /\
      executed rs "basic_transitivity" /\
      (failed rs "basic_transitivity" <-> exists a c, gap r a c).
  Proof.
    pose proof (lgr_reachable_wf g Hre) as Hwf. fold r in Hwf.
    assert (Hp : forall x, In x (variant_pairs g) <-> lk r (ch_cp (fst x)) = Some (fst x) /\ In (snd x) (get_variants (fst x))).
    { intros [ch v]. apply variant_pairs_In; auto. }
    destruct (check_loop_spec _ _ (trans_pair g) (variant_pairs g)) as [rs [ok [is [E [H1 [H2 H3]]]]]].
    { intros [ch v] Hx. apply Hp in Hx. destruct Hx as [Ha Hb]. destruct (trans_pair_spec ch v Ha Hb) as [o [i [s [Hs _]]]]. eauto. }
    assert (Hiss : forall ch w, In (ch, w) is <-> lk r (ch_cp ch) = Some ch /\
         exists b, has_target r (ch_cp ch) b /\ mapping r b (v_cp w) w /\ v_cp w <> ch_cp ch /\ ~ has_target r (ch_cp ch) (v_cp w)).
    { intros ch w. rewrite H2. split.
      - intros [[c v] [o [i [s [Hx [Hs Hi]]]]]]. apply Hp in Hx. destruct Hx as [Ha Hb]. cbn [fst snd] in *.
        destruct (trans_pair_spec c v Ha Hb) as [o' [i' [s' [Hs' [_ [Hi' _]]]]]]. rewrite Hs in Hs'. injection Hs' as S1 S2 S3. subst.
        apply Hi' in Hi. destruct Hi as [E1 Hi]. subst c. split; [exact Ha|]. exists (v_cp v). split; [exists v; apply mapping_lk; eauto|exact Hi].
      - intros [Ha [b [[v Hv] Hw]]]. apply mapping_lk in Hv. destruct Hv as [c [V1 [V2 V3]]]. rewrite Ha in V1. injection V1 as V1. subst c b.
        destruct (trans_pair_spec ch v Ha V2) as [o [i [s [Hs [_ [Hi _]]]]]]. exists (ch, v), o, i, s. split; [apply Hp; auto|].
        split; [exact Hs|]. apply Hi. auto. }
    unfold check_transitivity. rewrite E. eexists. exists ok, is. split; [reflexivity|]. split; [|split; [|split]].
    - rewrite H1. split.
      + intros H a b [v Hv]. apply mapping_lk in Hv. destruct Hv as [ch [Ha [Hb Hc]]]. pose proof (lk_cp _ _ _ Ha) as Hcp.
        rewrite <- Hcp in Ha. assert (Hx : In (ch, v) (variant_pairs g)) by (apply Hp; auto).
        destruct (H _ Hx) as [i [s Hs]]. destruct (trans_pair_spec ch v Ha Hb) as [o' [i' [s' [Hs' [Ho [Hi' _]]]]]].
        rewrite Hs in Hs'. injection Hs' as S1 S2 S3. subst. destruct (proj1 Ho eq_refl) as [Hl Hnil]. subst i'.
        split; [rewrite lookup_lk; exact Hl|]. intros c [w Hw] Hca. destruct (has_target_dec r (ch_cp ch) c) as [Hd|Hd]; auto. exfalso.
        assert (Hwc : v_cp w = c) by (apply mapping_lk in Hw; destruct Hw as [? [_ [_ Hw]]]; exact Hw). subst c.
        apply (Hi' ch w). auto.
      + intros Ht [ch v] Hx. apply Hp in Hx. destruct Hx as [Ha Hb]. cbn [fst snd] in *.
        destruct (trans_pair_spec ch v Ha Hb) as [o [i [s [Hs [Ho [Hi _]]]]]]. rewrite Hs.
        destruct (Ht (ch_cp ch) (v_cp v)) as [Hl Hc]; [exists v; apply mapping_lk; eauto|]. rewrite lookup_lk in Hl.
        assert (Hnil : i = []).
        { destruct i as [|[d w] i]; auto. exfalso. destruct (proj1 (Hi d w) (or_introl eq_refl)) as [_ [M1 [M2 M3]]]. apply M3.
          apply Hc; [exists w; exact M1|exact M2]. }
        rewrite (proj2 Ho (conj Hl Hnil)). eauto.
    - intros ch w. rewrite lookup_lk. apply Hiss.
    - exists true. apply in_or_app. right. left. reflexivity.
    - unfold failed. rewrite in_app_iff. split.
      + intros [H|[H|[]]]; [|discriminate]. apply H3 in H. destruct H as [[c v] [o [i [s [Hx [Hs Hi]]]]]].
        apply Hp in Hx. destruct Hx as [Ha Hb]. cbn [fst snd] in *.
        destruct (trans_pair_spec c v Ha Hb) as [o' [i' [s' [Hs' [_ [Hi' Hq]]]]]]. rewrite Hs in Hs'. injection Hs' as S1 S2 S3. subst.
        apply Hq in Hi. destruct Hi as [Hne _]. destruct i' as [|[d w] i']; [contradiction|].
        destruct (proj1 (Hi' d w) (or_introl eq_refl)) as [_ [M1 [M2 M3]]]. exists (ch_cp c), (v_cp w), (v_cp v).
        split; [exists v; apply mapping_lk; eauto|]. split; [exists w; exact M1|auto].
      + intros [a [c [b [[v Hv] [[w Hw] [Hca Hn]]]]]]. left. apply mapping_lk in Hv. destruct Hv as [ch [Ha [Hb Hc]]]. subst b.
        pose proof (lk_cp _ _ _ Ha) as Hcp. subst a.
        assert (Hwc : v_cp w = c) by (apply mapping_lk in Hw; destruct Hw as [? [_ [_ Hw]]]; exact Hw). subst c.
        destruct (trans_pair_spec ch v Ha Hb) as [o [i [s [Hs [_ [Hi Hq]]]]]]. apply H3. exists (ch, v), o, i, s.
        split; [apply Hp; auto|]. split; [exact Hs|]. apply Hq. split; [|reflexivity].
        assert (Hin : In (ch, w) i) by (apply Hi; auto). intro Hnil. rewrite Hnil in Hin. contradiction.
  Qed.
End Trans.

(** ** Conditional variants *)
Theorem check_conditional_spec : forall g rules, lgr_reachable g ->
  let '(ok, issues) := check_conditional_variants g rules in
  (ok = true <-> forall a b v rule, mapping (lg_rep g) a b v -> (v_when v = Some rule \/ v_not_when v = Some rule) -> In rule rules) /\
  (forall ch v b rule, In (ch, v, b, rule) issues <->
     lookup (lg_rep g) (ch_cp ch) = Some ch /\ In v (get_variants ch) /\
     rule = (if b then v_when v else v_not_when v) /\ exists s, rule = Some s /\ ~ In s rules).
Proof.
  intros g rules Hre. pose proof (lgr_reachable_wf g Hre) as Hwf. unfold check_conditional_variants.
  set (is := flat_map (cond_pair rules) (variant_pairs g)).
  assert (Hno : forall o, in_rules rules o = false <-> exists s, o = Some s /\ ~ In s rules).
  { intros [s|]; cbn [in_rules].
    - rewrite (memb_false _ _ string_eqb_iff). split; [intro H; eauto|]. intros [s' [H1 H2]]. injection H1 as H1. subst. exact H2.
    - split; [discriminate|intros [s [H _]]; discriminate]. }
  assert (Hiss : forall ch v b rule, In (ch, v, b, rule) is <->
     lookup (lg_rep g) (ch_cp ch) = Some ch /\ In v (get_variants ch) /\
     rule = (if b then v_when v else v_not_when v) /\ exists s, rule = Some s /\ ~ In s rules).
  { intros ch v b rule. unfold is. rewrite in_flat_map, lookup_lk. split.
    - intros [[c w] [Hx Hi]]. apply variant_pairs_In in Hx; [|exact Hwf]. destruct Hx as [Ha Hb]. unfold cond_pair in Hi. apply in_app_iff in Hi.
      destruct Hi as [Hi|Hi].
      + destruct (in_rules rules (v_when w)) eqn:Er; [contradiction|]. destruct Hi as [Hi|[]]. injection Hi as I1 I2 I3 I4. subst.
        split; auto. split; auto. split; auto. apply Hno. exact Er.
      + destruct (in_rules rules (v_not_when w)) eqn:Er; [contradiction|]. destruct Hi as [Hi|[]]. injection Hi as I1 I2 I3 I4. subst.
        split; auto. split; auto. split; auto. apply Hno. exact Er.
    - intros [Ha [Hb [Hr Hs]]]. exists (ch, v). split; [apply variant_pairs_In; auto|]. unfold cond_pair. apply in_app_iff. apply Hno in Hs.
      destruct b; subst rule; rewrite Hs; [left|right]; left; reflexivity. }
  split; [|exact Hiss]. split.
  - intros Hok a b v rule [ch [Ha [Hb Hc]]] Hr. destruct is as [|i is'] eqn:Ei; [|discriminate].
    destruct (memb String.eqb rule rules) eqn:M; [apply (memb_In _ _ string_eqb_iff) in M; exact M|]. exfalso.
    apply (memb_false _ _ string_eqb_iff) in M. pose proof (lk_cp (lg_rep g) a ch) as Hcp. rewrite <- lookup_lk in Hcp. specialize (Hcp Ha). subst a.
    destruct Hr as [Hr|Hr].
    + apply (Hiss ch v true (Some rule)). split; auto. split; auto. split; eauto.
    + apply (Hiss ch v false (Some rule)). split; auto. split; auto. split; eauto.
  - intro H. destruct is as [|[[[ch v] b] rule] is'] eqn:Ei; [reflexivity|]. exfalso.
    destruct (proj1 (Hiss ch v b rule) (or_introl eq_refl)) as [Ha [Hb [Hr [s [Hs Hn]]]]]. apply Hn.
    apply (H (ch_cp ch) (v_cp v) v s); [exists ch; auto|]. destruct b; [left|right]; congruence.
Qed.
