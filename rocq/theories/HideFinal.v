(** Hiding mixed script variants, exactly: the theorems. *)
From Coq Require Import Sorting.Sorted Permutation.
From Verif Require Import Base BaseFacts CharModel RepSpec RepProofs VariantProofs ActionModel ActionSpec ActionProofs
  LabelModel LabelSpec LabelProofs LabelElig LabelGen LabelVar LabelFilter HideSpec HideProofs.
Open Scope string_scope.
Open Scope list_scope.

Section Hide.
  Variables (rm : rule_oracle) (r : repertoire) (script : N -> string).
  Hypothesis Hwf : wf_rep r.

  Lemma variant_nonempty : forall ch v, entry r ch -> In v (get_variants ch) -> v_cp v <> [].
  Proof.
    intros ch v He Hv. apply entry_lk in He. pose proof (lk_wf _ _ _ Hwf He) as Hwc. apply get_variants_In in Hv; auto.
    destruct Hv as [vl [V1 _]]. destruct Hwc as [[_ Hvw] _]. apply (Hvw _ _ V1).
  Qed.
  Lemma first_iff : forall f label l, run rm r script [] label true (Some f) l <->
    exists ch tail p f' l', label = ch_cp ch ++ tail /\ considered rm r [] label ch /\
      In p (char_perms rm script [] (ch_cp ch ++ tail) true (Some f) ch) /\ pflt p = Some f' /\ l = (ch, p) :: map (named_by f') l' /\
      replacement rm (considered rm r) (piece_cp (pp p)) tail l' /\ forall x, In x l' -> in_filter script f' (snd x).
  Proof.
    intros f label l.
    assert (Hflt : forall ch tail p, In p (char_perms rm script [] (ch_cp ch ++ tail) true (Some f) ch) -> exists f', pflt p = Some f').
    { intros ch tail p Hp. apply perms_first_iff in Hp. destruct Hp as [[v [_ [_ ->]]]|[[v [_ [_ [_ ->]]]]|[-> _]]]; cbn; eauto. }
    split.
    - intro H. inversion H as [lp ch fi fl p Hc Hp|lp ch tail fi fl p l' Hc Hp Hrun]; subst.
      + rewrite <- (app_nil_r (ch_cp ch)) in Hp. destruct (Hflt ch [] p Hp) as [f' Hf']. exists ch, [], p, f', []. rewrite app_nil_r. split; auto. split; auto. split; [rewrite app_nil_r in Hp; exact Hp|].
        split; auto. split; [reflexivity|]. split; [constructor|intros x []].
      + destruct (Hflt ch tail p Hp) as [f' Hf']. rewrite Hf' in Hrun. apply run_later_iff in Hrun; auto. destruct Hrun as [_ [l'' [-> [R1 R2]]]].
        exists ch, tail, p, f', l''. auto 8.
    - intros [ch [tail [p [f' [l' [-> [Hc [Hp [Hf' [-> [R1 R2]]]]]]]]]]]. destruct tail as [|y tail].
      + apply nothing_left in R1; auto. subst l'. rewrite app_nil_r in *. apply run_last; auto.
      + apply run_step; auto. rewrite Hf'. apply run_later_iff; auto. split; [discriminate|]. exists l'. auto.
  Qed.

  Lemma native_filter : forall label p, in_filter script (mixed_filter r script label) p <-> piece_within script (native script label) p.
  Proof.
    intros label p. unfold in_filter, piece_within, native. rewrite cp_in_scripts_iff. cbn [mixed_filter sf_base].
    split; intros H x Hx; specialize (H x Hx); apply base_scripts_spec; exact H.
  Qed.
  Lemma other_filter_within : forall s p, in_filter script (other_filter s) p <-> piece_within script (permitted (fun t => t = s)) p.
  Proof.
    intros s p. unfold in_filter, piece_within. rewrite cp_in_scripts_iff. cbn [other_filter sf_base].
    assert (E : forall t, In t (get_permitted_scripts [s]) <-> permitted (fun t => t = s) t).
    { intro t. rewrite permitted_spec. apply permitted_ext. intro u. cbn [In]. split; [intros [H|[]]; auto|auto]. }
    split; intros H x Hx; specialize (H x Hx); apply E; exact H.
  Qed.
  Lemma alternative_filter : forall label c, cp_in_other script (mixed_filter r script label) c = true <-> forall x, In x c -> alternative r script label (script x).
  Proof.
    intros label c. cbn [mixed_filter cp_in_other sf_other]. rewrite cp_in_scripts_iff. split; intros H x Hx; specialize (H x Hx); apply (other_scripts_spec r script Hwf); exact H.
  Qed.
  Lemma named_native : forall label x, In x label -> named (script x) -> native script label (script x).
  Proof. intros label x Hx [H1 H2]. left. split; [eauto|auto]. Qed.

  Lemma runs_remain : forall label l, label <> [] ->
    (run rm r script [] label true (Some (mixed_filter r script label)) l ->
     exists l', map (fun x => (fst x, (pp (snd x), pds (snd x), pisv (snd x)))) l = map (fun x => (fst x, (snd x, ds_of (snd x), isv_of (snd x)))) l' /\ remains rm r script label l').
  Proof.
    intros label l Hne H. apply first_iff in H. destruct H as [ch [tail [p [f' [l' [E [Hc [Hp [Hf' [-> [R1 R2]]]]]]]]]]].
    exists ((ch, pp p) :: l'). assert (He : entry r ch) by (eapply considered_entry; eauto).
    assert (Hmap : map (fun x : char * perm => (fst x, (pp (snd x), pds (snd x), pisv (snd x)))) (map (named_by f') l') = map (fun x => (fst x, (snd x, ds_of (snd x), isv_of (snd x)))) l').
    { rewrite map_map. apply map_ext. intros [c pc]. reflexivity. }
    apply perms_first_iff in Hp. destruct Hp as [[v [Hu [Ho ->]]]|[[v [Hu [Ho [Hf ->]]]]|[-> Hn]]]; cbn [pp pflt] in *; cbn [map fst snd pp pds pisv].
    - split; [rewrite Hmap; reflexivity|]. split; [left; rewrite E in *; apply rp_variant; auto|].
      pose proof (variant_nonempty ch v He (proj1 Hu)) as Hv. destruct (v_cp v) as [|x t] eqn:Ev; [contradiction|]. injection Hf' as <-.
      eapply ft_other; [exact Ev| |].
      + intros y Hy. cbn [piece_cp] in Hy. rewrite Ev in Hy. apply (proj1 (alternative_filter label (x :: t)) Ho y Hy).
      + intros y Hy. apply other_filter_within. apply R2. exact Hy.
    - split; [rewrite Hmap; reflexivity|]. split; [left; rewrite E in *; apply rp_variant; auto|]. injection Hf' as <-.
      apply ft_native; [right; apply native_filter; exact Hf|]. intros x Hx. apply native_filter. apply R2. exact Hx.
    - split; [rewrite Hmap; reflexivity|]. injection Hf' as <-. split.
      + destruct (usable_refl_dec rm [] tail ch) as [[v [Hu Hv]]|Hno].
        * right. apply (um rm r script label ch v tail l'); auto. intro Hw. destruct (Hn v Hu Hv) as [_ Hnf]. apply Hnf.
          apply native_filter. intros x Hx. apply Hw. cbn [piece_cp] in *. rewrite <- Hv. exact Hx.
        * left. rewrite E in *. apply rp_keep; auto.
      + apply ft_native; [left; reflexivity|]. intros x Hx. apply native_filter. apply R2. exact Hx.
  Qed.
  Lemma remain_runs : forall label l', label <> [] -> remains rm r script label l' ->
    exists l, map (fun x => (fst x, (pp (snd x), pds (snd x), pisv (snd x)))) l = map (fun x => (fst x, (snd x, ds_of (snd x), isv_of (snd x)))) l' /\
      run rm r script [] label true (Some (mixed_filter r script label)) l.
  Proof.
    intros label l' Hne [Hr Hf].
    assert (Hmap : forall f l, map (fun x : char * perm => (fst x, (pp (snd x), pds (snd x), pisv (snd x)))) (map (named_by f) l) = map (fun x => (fst x, (snd x, ds_of (snd x), isv_of (snd x)))) l).
    { intros f l. rewrite map_map. apply map_ext. intros [c pc]. reflexivity. }
    assert (Hgo : forall ch tail p f' l, label = ch_cp ch ++ tail -> considered rm r [] label ch ->
       In p (char_perms rm script [] (ch_cp ch ++ tail) true (Some (mixed_filter r script label)) ch) -> pflt p = Some f' ->
       pds p = ds_of (pp p) -> pisv p = isv_of (pp p) ->
       replacement rm (considered rm r) (piece_cp (pp p)) tail l -> (forall x, In x l -> in_filter script f' (snd x)) ->
       exists l0, map (fun x => (fst x, (pp (snd x), pds (snd x), pisv (snd x)))) l0 = map (fun x => (fst x, (snd x, ds_of (snd x), isv_of (snd x)))) ((ch, pp p) :: l) /\
         run rm r script [] label true (Some (mixed_filter r script label)) l0).
    { intros ch tail p f' l E Hc Hp Hf' D1 D2 R1 R2. exists ((ch, p) :: map (named_by f') l). split; [cbn [map fst snd]; rewrite Hmap, D1, D2; reflexivity|].
      apply first_iff. exists ch, tail, p, f', l. auto 8. }
    destruct Hr as [Hr|Hr].
    - inversion Hr as [d E1|d ch tail l Hc Hn Hl E1 E2 E3|d ch v tail l Hc Hu Hl E1 E2 E3]; subst; [contradiction| |].
      + apply (Hgo ch tail (PChar ch, [], false, Some (mixed_filter r script (ch_cp ch ++ tail))) (mixed_filter r script (ch_cp ch ++ tail)) l); auto.
        * apply perms_first_iff. right. right. split; auto. intros v Hu Hv. exfalso. exact (Hn v Hu Hv).
        * inversion Hf; subst. intros x Hx. apply native_filter. auto.
      + pose proof (variant_nonempty ch v (proj1 (considered_entry rm r _ _ _ Hc)) (proj1 Hu)) as Hv.
        inversion Hf as [ch' p' l0 F1 F2|ch' v' x t l0 F1 F2 F3]; subst.
        * destruct F1 as [F1|F1]; [discriminate|].
          apply (Hgo ch tail (PVar v, ds_of (PVar v), true, Some (mixed_filter r script (ch_cp ch ++ tail))) (mixed_filter r script (ch_cp ch ++ tail)) l); auto.
          -- apply perms_first_iff. right. left. exists v. split; auto. split; [|split; [apply native_filter; exact F1|reflexivity]].
             destruct (cp_in_other script _ (v_cp v)) eqn:Eo; auto. exfalso. destruct (v_cp v) as [|x t] eqn:Ev; [contradiction|].
             pose proof (proj1 (alternative_filter _ _) Eo x (or_introl eq_refl)) as [_ [Hb _]]. apply Hb. apply F1. cbn [piece_cp]. rewrite Ev. left. reflexivity.
          -- intros x Hx. apply native_filter. auto.
        * apply (Hgo ch tail (PVar v, ds_of (PVar v), true, Some (other_filter (script x))) (other_filter (script x)) l); auto.
          -- apply perms_first_iff. left. exists v. split; auto. split; [apply alternative_filter; exact F2|]. rewrite F1. reflexivity.
          -- intros y Hy. apply other_filter_within. auto.
    - inversion Hr as [ch v tail l E Hc Hu Hv Hn Hl]; subst l'.
      apply (Hgo ch tail (PChar ch, [], false, Some (mixed_filter r script label)) (mixed_filter r script label) l); auto.
      + apply perms_first_iff. right. right. split; auto. intros v' Hu' Hv'. split.
        * destruct (cp_in_other script _ (v_cp v')) eqn:Eo; auto. exfalso.
          pose proof (variant_nonempty ch v' (proj1 (considered_entry rm r _ _ _ Hc)) (proj1 Hu')) as Hvn. rewrite Hv' in *. destruct (ch_cp ch) as [|x t] eqn:Ec; [contradiction|].
          pose proof (proj1 (alternative_filter _ _) Eo x (or_introl eq_refl)) as [H1 [H2 _]]. apply H2. apply named_native; [rewrite E; left; reflexivity|exact H1].
        * intro Hin. apply Hn. apply native_filter in Hin. intros x Hx. apply Hin. cbn [piece_cp] in *. rewrite Hv'. exact Hx.
      + inversion Hf; subst. intros x Hx. apply native_filter. auto.
  Qed.

  Lemma remains_entries : forall label l, remains rm r script label l -> forall x, In x l -> entry r (fst x).
  Proof.
    intros label l [[H|H] _].
    - eapply replacement_entries; [|exact H]. intros d t c Hc. apply considered_entry in Hc; auto. apply Hc.
    - inversion H as [ch v tail l' E Hc Hu Hv Hn Hl]; subst. intros x [<-|Hx]; [eapply considered_entry; eauto|].
      eapply replacement_entries; [|exact Hl|exact Hx]. intros d t c Hd. apply considered_entry in Hd; auto. apply Hd.
  Qed.
  Lemma remains_nonempty : forall label l, label <> [] -> remains rm r script label l -> l <> [].
  Proof. intros label l Hne [_ H]. inversion H; discriminate. Qed.

  Theorem hidden_exact : forall label, label <> [] -> exists ws, label_variants rm r script label true = Some ws /\
    (forall w, In w ws -> exists l, remains rm r script label l /\ produced l /\ reports w l) /\
    (forall l, remains rm r script label l -> produced l -> exists w, In w ws /\ reports w l).
  Proof.
    intros label Hne. unfold label_variants. set (f := match label with [] => None | _ => Some (mixed_filter r script label) end).
    assert (Hf : f = Some (mixed_filter r script label)) by (unfold f; destruct label; [contradiction|reflexivity]). rewrite Hf.
    destruct (gen_spec rm r script Hwf (length label) [] label false true (Some (mixed_filter r script label)) (le_n _)) as [ws [W1 W2]].
    exists ws. split; [exact W1|].
    assert (Hprod : forall l, remains rm r script label l -> (emit false (map canon l) = true <-> produced l)).
    { intros l Hl. rewrite (emit_spec r Hwf) by (eapply remains_entries; exact Hl). unfold produced. split; intros [l0 [x [H1 H2]]]; exists l0, x; split; auto. destruct H2 as [H2|H2]; [discriminate|auto]. }
    split.
    - intros w Hw. apply W2 in Hw. destruct Hw as [l [R1 [R2 ->]]]. destruct (runs_remain label l Hne R1) as [l' [E Hl']]. destruct (map_strip_out _ _ E) as [E1 E2].
      exists l'. split; auto. split; [apply Hprod; auto; rewrite <- E2; exact R2|]. rewrite E1. apply out_reports. eapply remains_nonempty; eauto.
    - intros l Hl Hp. destruct (remain_runs label l Hne Hl) as [l0 [E R1]]. destruct (map_strip_out _ _ E) as [E1 E2].
      exists (out l0). split; [|rewrite E1; apply out_reports; eapply remains_nonempty; eauto]. apply W2. exists l0. split; auto. split; auto.
      rewrite E2. apply Hprod; auto.
  Qed.

  (** Hiding only removes labels. *)
  Theorem hidden_shown : forall label ws ws', label <> [] -> label_variants rm r script label true = Some ws -> label_variants rm r script label false = Some ws' ->
    forall w, In w ws -> exists w', In w' ws' /\ vl_cp w' = vl_cp w.
  Proof.
    intros label ws ws' Hne H H' w Hw. destruct (hidden_exact label Hne) as [ws0 [W1 [W2 _]]]. assert (ws0 = ws) by congruence. subst ws0.
    destruct (variants_exact rm r script Hwf label Hne) as [ws1 [V1 [_ V3]]]. assert (ws1 = ws') by congruence. subst ws1.
    destruct (W2 w Hw) as [l [[Hl _] [Hp [Hr _]]]]. destruct Hl as [Hl|Hl].
    - destruct (V3 l Hl Hp) as [w' [Hw' [Hr' _]]]. exists w'. split; auto. congruence.
    - inversion Hl as [ch v tail l' E Hc Hu Hv Hn Hl']; subst l.
      destruct (V3 ((ch, PVar v) :: l')) as [w' [Hw' [Hr' _]]].
      + rewrite E in *. apply rp_variant; auto. cbn [app]. rewrite Hv. exact Hl'.
      + destruct Hp as [l0 [x [E1 E2]]]. destruct l0 as [|y l0]; injection E1 as E1 E3.
        * subst x l'. exists [], (ch, PVar v). split; [reflexivity|]. right. cbn [fst]. intro Hx. destruct Hu as [Hu _]. rewrite Hx in Hu. contradiction.
        * exists ((ch, PVar v) :: l0), x. split; [rewrite E3; reflexivity|]. left. exists ch, v. left. reflexivity.
      + exists w'. split; auto. rewrite Hr', Hr. unfold result. cbn [flat_map snd piece_cp]. rewrite Hv. reflexivity.
  Qed.

  (** ** Labels all of whose code points start an entry *)
  Lemma knows_all : forall l n, (forall x, In x l -> known r x) -> knows r l n -> n = length l.
  Proof.
    intros l n Hk H. induction H as [|x l n Hx H IH|x l n Hx H IH]; auto.
    - cbn. rewrite IH; auto. intros y Hy. apply Hk. right. exact Hy.
    - exfalso. apply Hx. apply Hk. left. reflexivity.
  Qed.
  Lemma skipn_length_app : forall (A : Type) (a b : list A), skipn (length a) (a ++ b) = b.
  Proof. induction a; intro b; cbn; auto. Qed.
  Theorem alternative_everywhere : forall label s, label <> [] -> (forall x, In x label -> known r x) ->
    (alternative r script label s <-> everywhere r script label s).
  Proof.
    intros label s Hne Hk. unfold alternative, everywhere. split.
    - intros [H1 [H2 [_ H3]]]. split; auto. split; auto. intros l1 x l2 E. destruct (knows_total r Hwf l1) as [n Hn].
      pose proof (knows_all l1 n) as Hl. rewrite Hl in Hn; auto; [|intros y Hy; apply Hk; rewrite E; apply in_or_app; auto].
      assert (Hx : known r x) by (apply Hk; rewrite E; apply in_or_app; right; left; reflexivity).
      specialize (H3 l1 x l2 (length l1) E Hx Hn). rewrite E, skipn_length_app in H3. exact H3.
    - intros [H1 [H2 H3]]. split; auto. split; auto. split; [destruct label as [|x label]; [contradiction|]; exists x; split; [left; reflexivity|apply Hk; left; reflexivity]|].
      intros l1 x l2 n E Hx Hn. rewrite (knows_all l1 n) by (auto; intros y Hy; apply Hk; rewrite E; apply in_or_app; auto).
      rewrite E, skipn_length_app. apply H3 with (l1 := l1). exact E.
  Qed.

  (** A variant label wholly in one script is not hidden, if no sequence occurs in the label. *)
  Definition no_sequence (label : cps) : Prop :=
    forall ch a b, entry r ch -> label = a ++ ch_cp ch ++ b -> length (ch_cp ch) = 1%nat.
  Lemma lined_up : forall s done rest l, replacement rm (considered rm r) done rest l ->
    (forall ch a b, entry r ch -> rest = a ++ ch_cp ch ++ b -> length (ch_cp ch) = 1%nat) ->
    (forall x, In x l -> exists v, snd x = PVar v /\ forall y, In y (v_cp v) -> script y = s) ->
    (forall x, In x rest -> known r x) /\ forall l1 x l2, rest = l1 ++ x :: l2 -> offers r script x (x :: l2) s.
  Proof.
    intros s done rest l H. induction H as [done|done ch tail l Hc Hn Hl IH|done ch v tail l Hc Hu Hl IH]; intros Hs Hin.
    - split; [intros x []|]. intros l1 x l2 E. destruct l1; discriminate.
    - exfalso. destruct (Hin (ch, PChar ch) (or_introl eq_refl)) as [v [Hv _]]. discriminate.
    - pose proof (proj1 (considered_entry rm r _ _ _ Hc)) as He. assert (H1 : length (ch_cp ch) = 1%nat) by (apply (Hs ch [] tail He); reflexivity).
      destruct (ch_cp ch) as [|x [|z t]] eqn:Ec; try discriminate. destruct IH as [I1 I2].
      { intros c a b Hce E. apply (Hs c (x :: a) b Hce). cbn [app]. rewrite E. reflexivity. }
      { intros y Hy. apply Hin. right. exact Hy. }
      cbn [app]. split.
      + intros y [<-|Hy]; [exists ch, []; auto|auto].
      + intros l1 y l2 E. destruct l1 as [|y1 l1]; injection E as E1 E2; [|eapply I2; exact E2]. subst y l2.
        destruct (Hin (ch, PVar v) (or_introl eq_refl)) as [v' [Hv' Hsc]]. injection Hv' as <-.
        pose proof (variant_nonempty ch v He (proj1 Hu)) as Hv. destruct (v_cp v) as [|y t] eqn:Ev; [contradiction|].
        exists ch, [], v, y. split; auto. split; auto. split; [exists tail; rewrite Ec; reflexivity|]. split; [apply Hu|]. rewrite Ev. split; [left; reflexivity|]. apply Hsc. left. reflexivity.
  Qed.
  Theorem whole_script_kept : forall label s, label <> [] -> no_sequence label -> named s ->
    exists ws, label_variants rm r script label true = Some ws /\
    forall l, replacement rm (considered rm r) [] label l ->
      (forall x, In x l -> exists v, snd x = PVar v /\ forall y, In y (v_cp v) -> script y = s) ->
      exists w, In w ws /\ reports w l.
  Proof.
    intros label s Hne Hs Hn. destruct (hidden_exact label Hne) as [ws [W1 [_ W3]]]. exists ws. split; auto. intros l Hl Hin.
    destruct (lined_up s [] label l Hl Hs Hin) as [K1 K2].
    assert (Hd : native script label s \/ ~ native script label s).
    { destruct (in_dec string_dec s (base_scripts script label)) as [H|H]; [left|right; intro Hx; apply H]; apply base_scripts_spec; auto. }
    inversion Hl as [d E1|d ch tail l0 Hc Hno Hl0 E1 E2 E3|d ch v tail l0 Hc Hu Hl0 E1 E2 E3]; subst; [contradiction| |].
    { exfalso. destruct (Hin (ch, PChar ch) (or_introl eq_refl)) as [v [Hv _]]. discriminate. }
    apply W3.
    - split; [left; exact Hl|]. destruct Hd as [Hd|Hd].
      + apply ft_native.
        * right. intros y Hy. destruct (Hin (ch, PVar v) (or_introl eq_refl)) as [v' [Hv' Hsc]]. injection Hv' as <-. rewrite (Hsc y Hy). exact Hd.
        * intros x Hx y Hy. destruct (Hin x (or_intror Hx)) as [v' [Hv' Hsc]]. rewrite Hv' in Hy. rewrite (Hsc y Hy). exact Hd.
      + pose proof (variant_nonempty ch v (proj1 (considered_entry rm r _ _ _ Hc)) (proj1 Hu)) as Hv. destruct (Hin (ch, PVar v) (or_introl eq_refl)) as [v' [Hv' Hsc]]. injection Hv' as <-.
        destruct (v_cp v) as [|x t] eqn:Ev; [contradiction|]. apply (ft_other r script (ch_cp ch ++ tail) ch v x t l0 Ev).
        * intros y Hy. cbn [piece_cp] in Hy. rewrite Ev in Hy. rewrite (Hsc y Hy). apply alternative_everywhere; auto. split; auto.
        * intros x0 Hx0 y Hy. destruct (Hin x0 (or_intror Hx0)) as [v' [Hv' Hsc']]. rewrite Hv' in Hy. rewrite (Hsc' y Hy), (Hsc x (or_introl eq_refl)). left. reflexivity.
    - destruct (exists_last (l := (ch, PVar v) :: l0)) as [m [x Hx]]; [discriminate|]. exists m, x. split; auto. right.
      assert (Hxin : In x ((ch, PVar v) :: l0)) by (rewrite Hx; apply in_or_app; right; left; reflexivity).
      destruct (Hin x Hxin) as [v' [Hv' _]].
      assert (Hg : forall d t l, replacement rm (considered rm r) d t l -> forall c w, In (c, PVar w) l -> In w (get_variants c)).
      { intros d t l H. induction H as [|d' c' t' l' H1 H2 H3 IHr|d' c' v0 t' l' H1 H2 H3 IHr]; intros c w Hcw; [contradiction| |]; destruct Hcw as [Hcw|Hcw]; eauto; [discriminate|].
        injection Hcw as <- <-. apply H2. }
      destruct x as [c pc]. cbn in Hv'. subst pc. cbn [fst]. intro Hxx. pose proof (Hg _ _ _ Hl _ _ Hxin) as Hi. rewrite Hxx in Hi. contradiction.
  Qed.
End Hide.
