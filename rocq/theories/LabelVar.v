(** Variant labels: soundness, completeness, and the mixed script filter. *)
From Coq Require Import Sorting.Sorted Permutation.
From Verif Require Import Base BaseFacts CharModel RepSpec RepProofs VariantProofs ActionModel ActionSpec ActionProofs
  LabelModel LabelSpec LabelProofs LabelElig LabelGen.
Open Scope list_scope.

Section Plain.
  Variables (rm : rule_oracle) (r : repertoire) (script : N -> string).
  Hypothesis Hwf : wf_rep r.

  Definition ds_of (pc : piece) : dispset := match pc with PChar _ => [] | PVar v => match v_type v with None => [] | Some t => [Some t] end end.
  Definition isv_of (pc : piece) : bool := match pc with PChar _ => false | PVar _ => true end.
  Definition canon (x : char * piece) : char * perm := (fst x, (snd x, ds_of (snd x), isv_of (snd x), None)).

  Lemma usable_dec : forall done tail ch v, In v (get_variants ch) ->
    (usable rm done tail ch v <-> ctx_var rm v (done ++ v_cp v ++ tail) (length done) = true).
  Proof. intros. unfold usable. rewrite ctx_var_iff. tauto. Qed.

  Lemma perms_none : forall done ch tail first p,
    In p (char_perms rm script done (ch_cp ch ++ tail) first None ch) <->
    (exists v, usable rm done tail ch v /\ p = (PVar v, ds_of (PVar v), true, None)) \/
    ((forall v, usable rm done tail ch v -> v_cp v <> ch_cp ch) /\ p = (PChar ch, [], false, None)).
  Proof.
    intros done ch tail first p. unfold char_perms. unfold ch_len. rewrite skipn_app_len. rewrite andb_true_r.
    set (vs := flat_map (var_perm rm script done tail first None) (get_variants ch)).
    assert (Hvs : forall q, In q vs <-> exists v, usable rm done tail ch v /\ q = (PVar v, ds_of (PVar v), true, None)).
    { intro q. unfold vs. rewrite in_flat_map. unfold var_perm. split.
      - intros [v [Hv Hq]]. destruct (ctx_var rm v (done ++ v_cp v ++ tail) (length done)) eqn:E; [|contradiction].
        destruct Hq as [<-|[]]. exists v. split; [apply usable_dec; auto|]. reflexivity.
      - intros [v [Hu ->]]. exists v. split; [apply Hu|]. pose proof (proj1 (usable_dec done tail ch v (proj1 Hu)) Hu) as Hu'. rewrite Hu'. left. reflexivity. }
    assert (Hex : existsb (is_refl_perm ch) vs = false <-> forall v, usable rm done tail ch v -> v_cp v <> ch_cp ch).
    { split.
      - intros H v Hu Hc. assert (Ht : existsb (is_refl_perm ch) vs = true).
        { apply existsb_exists. exists (PVar v, ds_of (PVar v), true, None). split; [apply Hvs; eauto|]. cbn. rewrite Hc. apply cps_eqb_refl. }
        congruence.
      - intro H. destruct (existsb (is_refl_perm ch) vs) eqn:E; auto. apply existsb_exists in E. destruct E as [q [Hq E]]. apply Hvs in Hq. destruct Hq as [v [Hu ->]].
        cbn in E. apply cps_eqb_eq in E. exfalso. eapply H; eauto. }
    destruct (existsb (is_refl_perm ch) vs) eqn:E; cbn [negb].
    - rewrite Hvs. split; [auto|]. intros [H|[H _]]; auto. exfalso. apply Hex in H. discriminate.
    - cbn [In]. rewrite Hvs. split.
      + intros [<-|H]; auto. right. split; auto. apply Hex. reflexivity.
      + intros [H|[_ ->]]; auto.
  Qed.

  Lemma run_replacement : forall done rest first flt l, run rm r script done rest first flt l -> flt = None ->
    exists l', l = map canon l' /\ replacement rm (considered rm r) done rest l'.
  Proof.
    intros done rest first flt l H. induction H as [done ch first flt p Hc Hp|done ch tail first flt p l Hc Hp Hrun IH]; intros ->.
    - rewrite <- (app_nil_r (ch_cp ch)) in Hp, Hc. apply perms_none in Hp. destruct Hp as [[v [Hu ->]]|[Hn ->]].
      + exists [(ch, PVar v)]. split; [reflexivity|]. rewrite <- (app_nil_r (ch_cp ch)). apply rp_variant; auto. constructor.
      + exists [(ch, PChar ch)]. split; [reflexivity|]. rewrite <- (app_nil_r (ch_cp ch)). apply rp_keep; auto. constructor.
    - apply perms_none in Hp. destruct Hp as [[v [Hu ->]]|[Hn ->]]; destruct (IH eq_refl) as [l' [-> Hl']]; cbn [pp piece_cp] in Hl'.
      + exists ((ch, PVar v) :: l'). split; [reflexivity|]. apply rp_variant; auto.
      + exists ((ch, PChar ch) :: l'). split; [reflexivity|]. apply rp_keep; auto.
  Qed.
  Lemma replacement_run : forall done rest l, replacement rm (considered rm r) done rest l -> rest <> [] ->
    forall first, run rm r script done rest first None (map canon l).
  Proof.
    intros done rest l H. induction H as [done|done ch tail l Hc Hn Hl IH|done ch v tail l Hc Hu Hl IH]; intros Hne first; [contradiction| |].
    - assert (Hp : In (PChar ch, [], false, None) (char_perms rm script done (ch_cp ch ++ tail) first None ch)) by (apply perms_none; auto).
      destruct tail as [|y tail].
      + inversion Hl; subst.
        * rewrite app_nil_r in *. cbn [map canon fst snd ds_of isv_of]. apply run_last; auto.
        * exfalso. match goal with h : _ ++ _ = [] |- _ => apply app_eq_nil in h; destruct h as [h _] end.
          match goal with h : considered _ _ _ _ ?c |- _ => apply considered_entry in h; destruct h as [h _]; apply entry_nonempty in h; contradiction end.
        * exfalso. match goal with h : _ ++ _ = [] |- _ => apply app_eq_nil in h; destruct h as [h _] end.
          match goal with h : considered _ _ _ _ ?c |- _ => apply considered_entry in h; destruct h as [h _]; apply entry_nonempty in h; contradiction end.
      + cbn [map]. apply run_step; auto. apply IH. discriminate.
    - assert (Hp : In (PVar v, ds_of (PVar v), true, None) (char_perms rm script done (ch_cp ch ++ tail) first None ch)) by (apply perms_none; eauto).
      destruct tail as [|y tail].
      + inversion Hl; subst.
        * rewrite app_nil_r in *. cbn [map canon fst snd isv_of]. apply run_last; auto.
        * exfalso. match goal with h : _ ++ _ = [] |- _ => apply app_eq_nil in h; destruct h as [h _] end.
          match goal with h : considered _ _ _ (ch_cp ?c ++ _) ?c, g : ch_cp ?c = [] |- _ => apply considered_entry in h; destruct h as [h _]; apply entry_nonempty in h; contradiction end.
        * exfalso. match goal with h : _ ++ _ = [] |- _ => apply app_eq_nil in h; destruct h as [h _] end.
          match goal with h : considered _ _ _ (ch_cp ?c ++ _) ?c, g : ch_cp ?c = [] |- _ => apply considered_entry in h; destruct h as [h _]; apply entry_nonempty in h; contradiction end.
      + cbn [map]. apply run_step; auto. apply IH. discriminate.
  Qed.

  Lemma out_reports : forall l, l <> [] -> reports (out (map canon l)) l.
  Proof.
    induction l as [|[ch pc] l IH]; intro Hne; [contradiction|]. destruct l as [|x l].
    - cbn [map canon out fst snd pp pds pisv]. unfold reports. cbn [vl_cp vl_chars vl_disp vl_only]. split; [cbn; rewrite app_nil_r; reflexivity|]. split; [reflexivity|]. split.
      + intro t. unfold type_used. split.
        * intro H. destruct pc as [c|v]; [contradiction|]. cbn in H. destruct (v_type v) as [s|] eqn:Ev; [|contradiction]. destruct H as [<-|[]]. split; [discriminate|]. exists ch, v. split; [left; reflexivity|auto].
        * intros [Hn [ch' [v [[H|[]] Ht]]]]. injection H as _ ->. cbn. destruct (v_type v); [left; auto|congruence].
      + unfold all_replaced. split.
        * intros H y [<-|[]]. cbn. destruct pc as [c|v]; [discriminate|eauto].
        * intro H. destruct (H (ch, pc) (or_introl eq_refl)) as [v Hv]. cbn in Hv. subst pc. reflexivity.
    - destruct (IH ltac:(discriminate)) as [I1 [I2 [I3 I4]]]. remember (x :: l) as l' eqn:El.
      assert (Hout : out (map canon ((ch, pc) :: l')) = mkVL (piece_cp pc ++ vl_cp (out (map canon l'))) (vl_disp (out (map canon l')) ++ ds_of pc)
          (isv_of pc && vl_only (out (map canon l'))) (pc :: vl_chars (out (map canon l')))) by (subst l'; reflexivity).
      rewrite Hout. unfold reports. cbn [vl_cp vl_chars vl_disp vl_only]. split; [rewrite I1; reflexivity|]. split; [rewrite I2; reflexivity|]. split.
      + intro t. rewrite in_app_iff, I3. unfold type_used. split.
        * intros [[Hn [c [v [H1 H2]]]]|H]; [split; auto; exists c, v; split; auto; right; exact H1|]. destruct pc as [c|v]; [contradiction|]. cbn in H.
          destruct (v_type v) as [s|] eqn:Ev; [|contradiction]. destruct H as [<-|[]]. split; [discriminate|]. exists ch, v. split; [left; reflexivity|auto].
        * intros [Hn [c [v [[H1|H1] H2]]]]; [|left; split; eauto]. right. injection H1 as _ ->. cbn. destruct (v_type v); [left; auto|congruence].
      + rewrite andb_true_iff, I4. unfold all_replaced. split.
        * intros [H1 H2] y [<-|Hy]; [|auto]. cbn. destruct pc; [discriminate|eauto].
        * intro H. split; [|intros y Hy; apply H; right; exact Hy]. destruct (H (ch, pc) (or_introl eq_refl)) as [v Hv]. cbn in Hv. subst pc. reflexivity.
  Qed.

  Lemma emit_spec : forall l hv, (forall x, In x l -> entry r (fst x)) ->
    (emit hv (map canon l) = true <-> exists l0 x, l = l0 ++ [x] /\ (hv = true \/ (exists ch v, In (ch, PVar v) l0) \/ get_variants (fst x) <> [])).
  Proof.
    induction l as [|[ch pc] l IH]; intros hv He.
    - cbn. split; [discriminate|]. intros [l0 [x [H _]]]. destruct l0; discriminate.
    - destruct l as [|y l].
      + cbn [map canon emit fst snd]. rewrite orb_true_iff, (has_variant_iff r ch Hwf) by (apply (He (ch, pc)); left; reflexivity). split.
        * intros H. exists [], (ch, pc). split; [reflexivity|]. cbn [fst]. tauto.
        * intros [l0 [x [H1 H2]]]. destruct l0 as [|z l0]; [|destruct l0; discriminate]. injection H1 as <-. cbn in H2. destruct H2 as [H2|[[c [v []]]|H2]]; auto.
      + remember (y :: l) as l' eqn:El.
        assert (Hem : emit hv (map canon ((ch, pc) :: l')) = emit (isv_of pc || hv) (map canon l')) by (subst l'; reflexivity).
        rewrite Hem, IH by (intros x Hx; apply He; right; exact Hx). split.
        * intros [l0 [x [H1 H2]]]. exists ((ch, pc) :: l0), x. split; [rewrite H1; reflexivity|]. destruct H2 as [H2|[[c [v H2]]|H2]].
          -- apply orb_true_iff in H2. destruct H2 as [H2|H2]; [|auto]. destruct pc as [c|v]; [discriminate|]. right. left. exists ch, v. left. reflexivity.
          -- right. left. exists c, v. right. exact H2.
          -- auto.
        * intros [l0 [x [H1 H2]]]. destruct l0 as [|z l0]; [subst l'; discriminate|]. injection H1 as Hz Hl'. exists l0, x. split; auto.
          destruct H2 as [H2|[[c [v [H2|H2]]]|H2]]; auto; [left; rewrite H2; apply orb_true_r|left|right; left; eauto]. rewrite <- Hz in H2. injection H2 as _ ->. reflexivity.
  Qed.

  Lemma replacement_entries : forall (allowed : cps -> cps -> char -> Prop) done rest l, (forall d t c, allowed d t c -> entry r c) ->
    replacement rm allowed done rest l -> forall x, In x l -> entry r (fst x).
  Proof. intros allowed done rest l Hal H. induction H; intros x Hx; [contradiction| |]; destruct Hx as [<-|Hx]; cbn; eauto. Qed.

  Theorem variants_exact : forall label, label <> [] -> exists ws, label_variants rm r script label false = Some ws /\
    (forall w, In w ws -> exists l, replacement rm (considered rm r) [] label l /\ produced l /\ reports w l) /\
    (forall l, replacement rm (considered rm r) [] label l -> produced l -> exists w, In w ws /\ reports w l).
  Proof.
    intros label Hne. unfold label_variants. destruct (gen_spec rm r script Hwf (length label) [] label false true None (le_n _)) as [ws [W1 W2]].
    exists ws. split; [exact W1|]. assert (Hent : forall l, replacement rm (considered rm r) [] label l -> forall x, In x l -> entry r (fst x)).
    { intros l Hl. eapply replacement_entries; [|exact Hl]. intros d t c Hc. apply considered_entry in Hc. apply Hc. }
    assert (Hprod : forall l, replacement rm (considered rm r) [] label l -> (emit false (map canon l) = true <-> produced l)).
    { intros l Hl. rewrite emit_spec by (apply Hent; exact Hl). unfold produced. split; intros [l0 [x [H1 H2]]]; exists l0, x; split; auto. destruct H2 as [H2|H2]; [discriminate|auto]. }
    assert (Hln : forall l, replacement rm (considered rm r) [] label l -> l <> []) by (intros l Hl ->; inversion Hl; subst; contradiction).
    split.
    - intros w Hw. apply W2 in Hw. destruct Hw as [l [R1 [R2 ->]]]. destruct (run_replacement _ _ _ _ _ R1 eq_refl) as [l' [-> Hl']].
      exists l'. split; auto. split; [apply Hprod; auto|apply out_reports; auto].
    - intros l Hl Hp. exists (out (map canon l)). split; [|apply out_reports; auto]. apply W2. exists (map canon l). split; [apply replacement_run; auto|].
      split; [apply Hprod; auto|reflexivity].
  Qed.

  (** ** Completeness *)
  Lemma considered_all : sequences_mapped r -> forall done rest ch, entry r ch -> starts ch rest -> considered rm r done rest ch.
  Proof.
    intros Hseq done rest ch He Hst.
    assert (Hmap : forall s, entry r s -> starts s rest -> (2 <= length (ch_cp s))%nat -> mapped rm r done rest s).
    { intros s Hs Hss Hl. destruct (Hseq s Hs Hl) as [H1 [H2 H3]]. split; auto. split; auto. split; auto. rewrite H2, H3. exact I. }
    destruct rest as [|x rest].
    { exfalso. destruct Hst as [t Ht]. symmetry in Ht. apply app_eq_nil in Ht. apply entry_nonempty in He. apply He. apply Ht. }
    destruct (le_lt_dec 2 (length (ch_cp ch))) as [Hl|Hl]; [left; left; apply Hmap; auto|].
    pose proof (find_longest r Hwf x rest) as Hf. destruct (find (fun c => is_prefix_of c (x :: rest)) (all_from r (x :: rest))) as [d|].
    2: { exfalso. eapply Hf; eauto. }
    destruct Hf as [F1 [F2 F3]]. destruct (le_lt_dec 2 (length (ch_cp d))) as [Hd|Hd].
    - right. exists d. split; [left; apply Hmap; auto|]. split; auto. split; auto. split; auto. lia.
    - left. assert (Hone : forall c, entry r c -> starts c (x :: rest) -> c = ch).
      { intros c Hc Hcs. pose proof (F3 c Hc Hcs) as L1. destruct (starts_first r c x rest Hc Hcs) as [t1 T1]. destruct (starts_first r ch x rest He Hst) as [t2 T2].
        rewrite T1 in L1. rewrite T2 in Hl. cbn in L1, Hl. assert (t1 = []) by (apply length_zero_iff_nil; lia). assert (t2 = []) by (apply length_zero_iff_nil; lia).
        unfold entry in *. rewrite T1 in Hc. rewrite T2 in He. congruence. }
      destruct (get_variants ch) as [|v0 vs] eqn:Ev.
      + right. split; [|split; [auto|split; [auto|]]].
        * intros c [Hc [Hcv [Hcs _]]]. apply Hcv. rewrite (Hone c Hc Hcs). exact Ev.
        * intros c Hc Hcs. rewrite (Hone c Hc Hcs). lia.
      + destruct (ctx_char rm ch (done ++ x :: rest) (length done)) eqn:Ec.
        * left. split; auto. split; [congruence|]. split; auto. apply ctx_char_iff. exact Ec.
        * right. split; [|split; [auto|split; [auto|]]].
          -- intros c [Hc [_ [Hcs Hcc]]]. rewrite (Hone c Hc Hcs) in Hcc. apply ctx_char_iff in Hcc. congruence.
          -- intros c Hc Hcs. rewrite (Hone c Hc Hcs). lia.
  Qed.

  Lemma usable_refl_dec : forall done tail ch, (exists v, usable rm done tail ch v /\ v_cp v = ch_cp ch) \/ (forall v, usable rm done tail ch v -> v_cp v <> ch_cp ch).
  Proof.
    intros done tail ch.
    destruct (existsb (fun v => ctx_var rm v (done ++ v_cp v ++ tail) (length done) && cps_eqb (v_cp v) (ch_cp ch)) (get_variants ch)) eqn:E.
    - left. apply existsb_exists in E. destruct E as [v [Hv E]]. apply andb_true_iff in E. destruct E as [E1 E2]. exists v. split; [apply usable_dec; auto|apply cps_eqb_eq; exact E2].
    - right. intros v Hu Hc. assert (Hx : existsb (fun v => ctx_var rm v (done ++ v_cp v ++ tail) (length done) && cps_eqb (v_cp v) (ch_cp ch)) (get_variants ch) = true); [|congruence].
      apply existsb_exists. exists v. split; [apply Hu|]. apply andb_true_iff. split; [apply (usable_dec done tail ch v (proj1 Hu)); exact Hu|apply cps_eqb_eq; exact Hc].
  Qed.

  Lemma free_to_replacement : sequences_mapped r -> forall done rest l, free_replacement rm r done rest l ->
    exists l', replacement rm (considered rm r) done rest l' /\ result l' = result l /\
      (forall ch v, In (ch, PVar v) l -> In (ch, PVar v) l').
  Proof.
    intros Hseq done rest l H. induction H as [done|done ch tail l He Hl IH|done ch v tail l He Hu Hl IH].
    - exists []. split; [constructor|]. split; auto.
    - destruct IH as [l' [I1 [I2 I3]]]. assert (Hc : considered rm r done (ch_cp ch ++ tail) ch) by (apply considered_all; auto; exists tail; reflexivity).
      destruct (usable_refl_dec done tail ch) as [[v [Hu Hv]]|Hn].
      + exists ((ch, PVar v) :: l'). split; [apply rp_variant; auto; rewrite Hv; exact I1|]. split.
        * cbn. rewrite Hv. change (flat_map (fun x => piece_cp (snd x)) l') with (result l'). rewrite I2. reflexivity.
        * intros c w [Hw|Hw]; [discriminate|]. right. auto.
      + exists ((ch, PChar ch) :: l'). split; [apply rp_keep; auto|]. split.
        * cbn. change (flat_map (fun x => piece_cp (snd x)) l') with (result l'). rewrite I2. reflexivity.
        * intros c w [Hw|Hw]; [discriminate|]. right. auto.
    - destruct IH as [l' [I1 [I2 I3]]]. exists ((ch, PVar v) :: l'). split; [apply rp_variant; auto; apply considered_all; auto; exists tail; reflexivity|]. split.
      * cbn. change (flat_map (fun x => piece_cp (snd x)) l') with (result l'). rewrite I2. reflexivity.
      * intros c w [Hw|Hw]; [left; exact Hw|right; auto].
  Qed.
  Lemma free_kept : forall done rest l, free_replacement rm r done rest l -> (forall ch v, ~ In (ch, PVar v) l) -> result l = rest.
  Proof.
    intros done rest l H. induction H as [done|done ch tail l He Hl IH|done ch v tail l He Hu Hl IH]; intro Hn; auto.
    - cbn. change (flat_map (fun x => piece_cp (snd x)) l) with (result l). rewrite IH; [reflexivity|]. intros c v Hc. apply (Hn c v). right. exact Hc.
    - exfalso. apply (Hn ch v). left. reflexivity.
  Qed.

  Theorem variants_complete : sequences_mapped r -> forall label l, label <> [] -> free_replacement rm r [] label l -> result l <> label ->
    exists ws w, label_variants rm r script label false = Some ws /\ In w ws /\ vl_cp w = result l.
  Proof.
    intros Hseq label l Hne Hf Hdiff. destruct (free_to_replacement Hseq _ _ _ Hf) as [l' [H1 [H2 H3]]].
    destruct (variants_exact label Hne) as [ws [W1 [_ W3]]]. assert (Hvar : exists ch v, In (ch, PVar v) l).
    { assert (Hd : (exists ch v, In (ch, PVar v) l) \/ (forall ch v, ~ In (ch, PVar v) l)).
      { clear. induction l as [|[c pc] l IH]; [right; intros ch v []|]. destruct IH as [[ch [v IH]]|IH]; [left; exists ch, v; right; exact IH|].
        destruct pc as [d|v]; [right; intros ch v [H|H]; [discriminate|eapply IH; eauto]|left; exists c, v; left; reflexivity]. }
      destruct Hd as [Hd|Hd]; auto. exfalso. apply Hdiff. eapply free_kept; eauto. }
    destruct Hvar as [ch [v Hv]]. apply H3 in Hv.
    assert (Hprod : produced l').
    { destruct (exists_last (l := l')) as [l0 [x Hx]]; [intros ->; contradiction|]. exists l0, x. split; [exact Hx|]. subst l'. apply in_app_or in Hv. destruct Hv as [Hv|[Hv|[]]].
      - left. eauto.
      - right. subst x. cbn. assert (Hin : In v (get_variants ch)).
        { clear - H1. assert (Hg : forall d t l, replacement rm (considered rm r) d t l -> forall c w, In (c, PVar w) l -> In w (get_variants c)).
          { intros d t l H. induction H; intros c w Hc; [contradiction| |]; destruct Hc as [Hc|Hc]; eauto; [discriminate|]. injection Hc as <- <-. match goal with h : usable _ _ _ _ _ |- _ => apply h end. }
          eapply Hg; [exact H1|]. apply in_or_app. right. left. reflexivity. }
        intro Hx. rewrite Hx in Hin. contradiction. }
    destruct (W3 l' H1 Hprod) as [w [Hw1 [Hw2 _]]]. exists ws, w. split; auto. split; auto. congruence.
  Qed.
End Plain.
