(** Mixed script filter. *)
From Coq Require Import Sorting.Sorted Permutation.
From Verif Require Import Base BaseFacts CharModel RepSpec RepProofs VariantProofs ActionModel ActionSpec ActionProofs
  LabelModel LabelSpec LabelProofs LabelElig LabelGen LabelVar.
Open Scope string_scope.
Open Scope list_scope.

Lemma smem_In : forall s l, smem s l = true <-> In s l.
Proof. intros. unfold smem. apply (memb_In _ _ string_eqb_iff). Qed.
Lemma sunion_In : forall s a b, In s (sunion a b) <-> In s a \/ In s b.
Proof. intros. unfold sunion. rewrite (dedup_In _ _ string_eqb_iff), in_app_iff. tauto. Qed.
Lemma sminus_In : forall s a b, In s (sminus a b) <-> In s a /\ ~ In s b.
Proof. intros. unfold sminus. rewrite filter_In, negb_true_iff. rewrite <- (smem_In s b). destruct (smem s b); intuition congruence. Qed.

Lemma permitted_spec : forall b s, In s (get_permitted_scripts b) <-> permitted (fun x => In x b) s.
Proof.
  intros b s. unfold get_permitted_scripts, permitted. rewrite <- !(smem_In _ b).
  destruct (smem "Katakana" b) eqn:E1, (smem "Hiragana" b) eqn:E2, (smem "Hangul" b) eqn:E3, (smem "Han" b) eqn:E4; cbn [orb];
    rewrite ?sunion_In, ?smem_In; cbn [In]; intuition (try discriminate; eauto).
Qed.
Lemma permitted_monotone : forall (P Q : string -> Prop), (forall s, P s -> Q s) -> forall s, permitted P s -> permitted Q s.
Proof. intros P Q H s. unfold permitted. intros [H1|[[H1 H2]|[H1 H2]]]; [left; auto|right; left|right; right]; split; auto; destruct H1; auto. Qed.
Lemma permitted_ext : forall (P Q : string -> Prop), (forall s, P s <-> Q s) -> forall s, permitted P s <-> permitted Q s.
Proof. intros P Q H s. split; apply permitted_monotone; intros; apply H; auto. Qed.
Theorem permitted_closure : forall a b,
  (forall s, In s a -> In s (get_permitted_scripts a)) /\
  ((forall s, In s a -> In s b) -> forall s, In s (get_permitted_scripts a) -> In s (get_permitted_scripts b)) /\
  (forall s, In s (get_permitted_scripts (get_permitted_scripts a)) <-> In s (get_permitted_scripts a)).
Proof.
  intros a b. split; [|split].
  - intros s H. apply permitted_spec. left. exact H.
  - intros H s. rewrite !permitted_spec. apply permitted_monotone. exact H.
  - intro s. rewrite permitted_spec. split; [|intro H; left; exact H]. intro H.
    assert (Hk : forall t, In t (get_permitted_scripts a) <-> permitted (fun x => In x a) t) by (intro; apply permitted_spec).
    unfold permitted in H. rewrite !Hk in H. apply Hk. unfold permitted in *. clear Hk.
    destruct H as [H|[[[H|H] H2]|[[H|H] H2]]]; auto; destruct H as [H|[[H H3]|[H H3]]];
      try (intuition (try discriminate; auto); fail).
    all: right; left; split; [tauto|auto].
Qed.

Lemma base_scripts_spec : forall script label s, In s (base_scripts script label) <-> permitted (label_script script label) s.
Proof.
  intros script label s. unfold base_scripts. rewrite permitted_spec. apply permitted_ext. intro t.
  rewrite (dedup_In _ _ string_eqb_iff), sminus_In, in_map_iff. unfold label_script, ignored_scripts. cbn [In]. split.
  - intros [[x [H1 H2]] H3]. split; [eauto|]. split; intro; subst; apply H3; auto.
  - intros [[x [H1 H2]] [H3 H4]]. split; [eauto|]. intros [H|[H|[]]]; subst; congruence.
Qed.

Lemma cp_in_scripts_iff : forall script c l, cp_in_scripts script c l = true <-> forall x, In x c -> In (script x) l.
Proof.
  intros script c l. unfold cp_in_scripts. rewrite forallb_forall. split; intros H x Hx; specialize (H x Hx); apply smem_In; exact H.
Qed.

Section Filter.
  Variables (rm : rule_oracle) (r : repertoire) (script : N -> string).
  Hypothesis Hwf : wf_rep r.

  Definition in_filter (f : sfilter) (p : piece) : Prop := cp_in_scripts script (piece_cp p) (sf_base f) = true.

  Lemma perms_later : forall done rest f ch p, In p (char_perms rm script done rest false (Some f) ch) -> in_filter f (pp p) /\ pflt p = Some f.
  Proof.
    intros done rest f ch p H. unfold char_perms in H.
    set (vs := flat_map (var_perm rm script done (skipn (ch_len ch) rest) false (Some f)) (get_variants ch)) in H.
    assert (Hvs : forall q, In q vs -> in_filter f (pp q) /\ pflt q = Some f).
    { intros q Hq. apply in_flat_map in Hq. destruct Hq as [v [_ Hq]]. unfold var_perm in Hq. cbn [andb] in Hq. unfold cp_in_base in Hq.
      destruct (cp_in_scripts script (v_cp v) (sf_base f)) eqn:E; [|contradiction]. cbn [negb] in Hq.
      destruct (ctx_var rm v _ _); [|contradiction]. destruct Hq as [<-|[]]. split; [exact E|reflexivity]. }
    destruct (negb (existsb (is_refl_perm ch) vs) && (false || cp_in_base script f (ch_cp ch)))%bool eqn:E; [|auto].
    destruct H as [<-|H]; [|auto]. apply andb_true_iff in E. destruct E as [_ E]. cbn [orb] in E. split; [exact E|reflexivity].
  Qed.
  Lemma run_later : forall done rest first flt l, run rm r script done rest first flt l -> first = false -> forall f, flt = Some f ->
    forall x, In x l -> in_filter f (pp (snd x)).
  Proof.
    intros done rest first flt l H. induction H as [done ch first flt p Hc Hp|done ch tail first flt p l Hc Hp Hrun IH]; intros -> f -> x Hx.
    - destruct Hx as [<-|[]]. apply perms_later in Hp. apply Hp.
    - apply perms_later in Hp. destruct Hx as [<-|Hx]; [apply Hp|]. apply IH; auto. apply Hp.
  Qed.
  Lemma perms_first : forall done rest f ch p, In p (char_perms rm script done rest true (Some f) ch) ->
    (exists v x t, pp p = PVar v /\ In v (get_variants ch) /\ cp_in_other script f (v_cp v) = true /\ (v_cp v = x :: t -> pflt p = Some (other_filter (script x))) /\ (v_cp v = [] \/ v_cp v = x :: t)) \/
    (pflt p = Some f /\ forall v, pp p = PVar v -> in_filter f (PVar v)).
  Proof.
    intros done rest f ch p H. unfold char_perms in H.
    set (vs := flat_map (var_perm rm script done (skipn (ch_len ch) rest) true (Some f)) (get_variants ch)) in H.
    assert (Hp : p = (PChar ch, [], false, Some f) \/ In p vs).
    { destruct (negb (existsb (is_refl_perm ch) vs) && (true || cp_in_base script f (ch_cp ch)))%bool; auto. destruct H as [H|H]; auto. }
    destruct Hp as [->|Hp]; [right; split; [reflexivity|discriminate]|].
    apply in_flat_map in Hp. destruct Hp as [v [Hv Hp]]. unfold var_perm in Hp. cbn [andb] in Hp.
    destruct (cp_in_other script f (v_cp v)) eqn:Eo.
    - left. destruct (ctx_var rm v _ _); [|contradiction]. destruct Hp as [<-|[]]. destruct (v_cp v) as [|x t] eqn:Ec.
      + exists v, 0, []. rewrite Ec. split; [reflexivity|]. split; [exact Hv|]. split; [exact Eo|]. split; [discriminate|left; reflexivity].
      + exists v, x, t. rewrite Ec. split; [reflexivity|]. split; [exact Hv|]. split; [exact Eo|]. split; [intros _; reflexivity|right; reflexivity].
    - right. unfold cp_in_base in Hp. destruct (cp_in_scripts script (v_cp v) (sf_base f)) eqn:E; [|contradiction]. cbn [negb] in Hp.
      destruct (ctx_var rm v _ _); [|contradiction]. destruct Hp as [<-|[]]. split; [reflexivity|]. intros v' Hv'. injection Hv' as <-. exact E.
  Qed.

  Lemma chars_out : forall l, vl_chars (out l) = map (fun x => pp (snd x)) l.
  Proof.
    induction l as [|[ch p] l IH]; [reflexivity|]. destruct l as [|y l]; [reflexivity|]. remember (y :: l) as l'.
    replace (out ((ch, p) :: l')) with (mkVL (piece_cp (pp p) ++ vl_cp (out l')) (vl_disp (out l') ++ pds p) (pisv p && vl_only (out l')) (pp p :: vl_chars (out l'))) by (subst; reflexivity).
    cbn. rewrite IH. reflexivity.
  Qed.
  Lemma cp_out : forall l, vl_cp (out l) = flat_map piece_cp (vl_chars (out l)).
  Proof.
    induction l as [|[ch p] l IH]; [reflexivity|]. destruct l as [|y l]; [cbn; rewrite app_nil_r; reflexivity|]. remember (y :: l) as l'.
    replace (out ((ch, p) :: l')) with (mkVL (piece_cp (pp p) ++ vl_cp (out l')) (vl_disp (out l') ++ pds p) (pisv p && vl_only (out l')) (pp p :: vl_chars (out l'))) by (subst; reflexivity).
    cbn. rewrite IH. reflexivity.
  Qed.

  (** What remains when mixed script variants are hidden. *)
  Theorem hidden_variants : forall label, label <> [] -> exists ws, label_variants rm r script label true = Some ws /\
    forall w, In w ws -> exists p0 l, vl_chars w = p0 :: l /\ vl_cp w = flat_map piece_cp (p0 :: l) /\
      (((forall v, p0 = PVar v -> piece_within script (permitted (label_script script label)) p0) /\
        forall p, In p l -> piece_within script (permitted (label_script script label)) p) \/
       (exists v x t, p0 = PVar v /\ v_cp v = x :: t /\
          (forall y, In y (v_cp v) -> In (script y) (other_scripts r script label)) /\
          forall p, In p l -> piece_within script (permitted (fun s => s = script x)) p)).
  Proof.
    intros label Hne. unfold label_variants. set (f := match label with [] => None | _ => Some (mixed_filter r script label) end).
    assert (Hf : f = Some (mixed_filter r script label)) by (unfold f; destruct label; [contradiction|reflexivity]). rewrite Hf.
    destruct (gen_spec rm r script Hwf (length label) [] label false true (Some (mixed_filter r script label)) (le_n _)) as [ws [W1 W2]].
    exists ws. split; [exact W1|]. intros w Hw. apply W2 in Hw. destruct Hw as [l [R1 [_ ->]]]. rewrite cp_out, chars_out.
    assert (Hbase : forall p, in_filter (mixed_filter r script label) p -> piece_within script (permitted (label_script script label)) p).
    { intros p Hp x Hx. apply base_scripts_spec. unfold in_filter in Hp. rewrite cp_in_scripts_iff in Hp. apply Hp. exact Hx. }
    assert (Hfirst : exists ch p l', l = (ch, p) :: l' /\ entry r ch /\
       ((exists v x t, pp p = PVar v /\ In v (get_variants ch) /\ cp_in_other script (mixed_filter r script label) (v_cp v) = true /\ (v_cp v = x :: t -> pflt p = Some (other_filter (script x))) /\ (v_cp v = [] \/ v_cp v = x :: t)) \/
       (pflt p = Some (mixed_filter r script label) /\ forall v, pp p = PVar v -> in_filter (mixed_filter r script label) (PVar v))) /\
       forall f', pflt p = Some f' -> forall x, In x l' -> in_filter f' (pp (snd x))).
    { inversion R1 as [lp ch fi fl p Hc Hp|lp ch tl fi fl p l' Hc Hp Hrun]; subst.
      - exists ch, p, []. split; auto. split; [eapply considered_entry; eauto|]. split; [eapply perms_first; eauto|]. intros f' _ x [].
      - exists ch, p, l'. split; auto. split; [eapply considered_entry; eauto|]. split; [eapply perms_first; eauto|]. intros f' Hf' x Hx.
        apply (run_later _ _ _ _ _ Hrun eq_refl f' Hf' x Hx). }
    destruct Hfirst as [ch [p [l' [-> [He [Hc Hrest]]]]]]. cbn [map snd]. exists (pp p), (map (fun x => pp (snd x)) l'). split; auto. split; auto.
    destruct Hc as [[v [x [t [H1 [Hvin [H2 [H3 H4]]]]]]]|[H1 H2]].
    - assert (Hcp : v_cp v = x :: t).
      { destruct H4 as [H4|H4]; auto. exfalso. apply entry_lk in He. pose proof (lk_wf _ _ _ Hwf He) as Hwc. apply get_variants_In in Hvin; auto.
        destruct Hvin as [vl [V1 _]]. destruct Hwc as [[_ Hv] _]. destruct (Hv _ _ V1) as [Hk _]. contradiction. }
      specialize (H3 Hcp). right. exists v, x, t. split; auto. split; auto. split.
      + apply cp_in_scripts_iff. exact H2.
      + intros q Hq. apply in_map_iff in Hq. destruct Hq as [y [<- Hy]]. specialize (Hrest _ H3 y Hy). unfold in_filter in Hrest. rewrite cp_in_scripts_iff in Hrest.
        intros z Hz. specialize (Hrest z Hz). cbn [other_filter sf_base] in Hrest. apply permitted_spec in Hrest.
        eapply permitted_monotone; [|exact Hrest]. intros s [Hs|[]]. auto.
    - left. split.
      + intros v Hv. rewrite Hv. apply Hbase. apply H2. exact Hv.
      + intros q Hq. apply in_map_iff in Hq. destruct Hq as [y [<- Hy]]. apply Hbase. apply (Hrest _ H1 y Hy).
  Qed.

  Lemma other_not_base : forall label s, In s (other_scripts r script label) -> ~ permitted (label_script script label) s.
  Proof.
    intros label s H Hb. apply base_scripts_spec in Hb. unfold other_scripts in H. destruct (scripts_loop r script label label None); [|contradiction].
    apply sminus_In in H. tauto.
  Qed.

  (** Variants staying inside the scripts of the label are not hidden. *)
  Lemma perms_base : forall done ch tail first f p,
    (forall c, c <> [] -> cp_in_scripts script c (sf_base f) = true -> cp_in_other script f c = false) ->
    in_filter f (pp p) -> In p (char_perms rm script done (ch_cp ch ++ tail) first None ch) ->
    (forall v, In v (get_variants ch) -> v_cp v <> []) ->
    In (pp p, pds p, pisv p, Some f) (char_perms rm script done (ch_cp ch ++ tail) first (Some f) ch).
  Proof.
    intros done ch tail first f p Hex Hin Hp Hne. apply perms_none in Hp. unfold char_perms, ch_len. rewrite skipn_app_len.
    set (vs := flat_map (var_perm rm script done tail first (Some f)) (get_variants ch)).
    destruct Hp as [[v [Hu ->]]|[Hn ->]]; cbn [pp pds pisv] in *.
    - assert (Hv : In (PVar v, ds_of (PVar v), true, Some f) vs).
      { unfold vs. apply in_flat_map. exists v. split; [apply Hu|]. unfold var_perm. assert (Ho : cp_in_other script f (v_cp v) = false) by (apply Hex; [apply Hne; apply Hu|exact Hin]).
        rewrite Ho, andb_false_r. unfold cp_in_base. unfold in_filter in Hin. cbn [piece_cp] in Hin. rewrite Hin. cbn [negb].
        rewrite (proj1 (usable_dec rm done tail ch v (proj1 Hu)) Hu). left. reflexivity. }
      destruct (negb (existsb (is_refl_perm ch) vs) && (first || cp_in_base script f (ch_cp ch)))%bool; [right|]; exact Hv.
    - assert (Hno : existsb (is_refl_perm ch) vs = false).
      { destruct (existsb (is_refl_perm ch) vs) eqn:E; auto. apply existsb_exists in E. destruct E as [q [Hq E]]. unfold vs in Hq. apply in_flat_map in Hq. destruct Hq as [v [Hv Hq]].
        assert (Hqv : exists d b fl, q = (PVar v, d, b, fl) /\ ctx_var rm v (done ++ v_cp v ++ tail) (length done) = true).
        { unfold var_perm in Hq. destruct (first && cp_in_other script f (v_cp v))%bool.
          - destruct (ctx_var rm v (done ++ v_cp v ++ tail) (length done)); [|contradiction]. destruct Hq as [<-|[]]. eauto.
          - destruct (negb (cp_in_base script f (v_cp v))); [contradiction|]. destruct (ctx_var rm v (done ++ v_cp v ++ tail) (length done)); [|contradiction]. destruct Hq as [<-|[]]. eauto. }
        destruct Hqv as [d [b [fl [-> Hcx]]]]. cbn in E. apply cps_eqb_eq in E. exfalso. apply (Hn v); auto. apply (usable_dec rm done tail ch v Hv). exact Hcx. }
      rewrite Hno. unfold in_filter in Hin. cbn [piece_cp] in Hin. unfold cp_in_base. rewrite Hin, orb_true_r. left. reflexivity.
  Qed.

  Definition refilter (f : sfilter) (x : char * perm) : char * perm := (fst x, (pp (snd x), pds (snd x), pisv (snd x), Some f)).
  Lemma run_base : forall f, (forall c, c <> [] -> cp_in_scripts script c (sf_base f) = true -> cp_in_other script f c = false) ->
    forall done rest first flt l, run rm r script done rest first flt l -> flt = None ->
    (forall x, In x l -> in_filter f (pp (snd x))) -> run rm r script done rest first (Some f) (map (refilter f) l).
  Proof.
    intros f Hf done rest first flt l H. induction H as [done ch first flt p Hc Hp|done ch tail first flt p l Hc Hp Hrun IH]; intros -> Hin.
    - cbn [map refilter fst snd]. apply run_last; [exact Hc|].
      pose proof (perms_base done ch [] first f p) as Hb. rewrite app_nil_r in Hb. apply Hb; auto; [apply (Hin (ch, p)); left; reflexivity|].
      apply considered_entry in Hc. destruct Hc as [He _]. intros v Hv. apply entry_lk in He. pose proof (lk_wf _ _ _ Hwf He) as Hwc.
      apply get_variants_In in Hv; auto. destruct Hv as [vl [V1 _]]. destruct Hwc as [[_ Hvw] _]. apply (Hvw _ _ V1).
    - assert (Hpf : pflt p = None) by (apply perms_none in Hp; destruct Hp as [[v [_ ->]]|[_ ->]]; reflexivity).
      cbn [map]. unfold refilter at 1. cbn [fst snd]. apply run_step; auto.
      + apply perms_base; auto; [apply (Hin (ch, p)); left; reflexivity|].
        apply considered_entry in Hc. destruct Hc as [He _]. intros v Hv. apply entry_lk in He. pose proof (lk_wf _ _ _ Hwf He) as Hwc.
        apply get_variants_In in Hv; auto. destruct Hv as [vl [V1 _]]. destruct Hwc as [[_ Hvw] _]. apply (Hvw _ _ V1).
      + cbn [pp pflt]. apply IH; auto. intros x Hx. apply Hin. right. exact Hx.
  Qed.
  Lemma refilter_out : forall f l, out (map (refilter f) l) = out l.
  Proof.
    intros f l. induction l as [|[ch p] l IH]; [reflexivity|]. destruct l as [|y l]; [reflexivity|]. remember (y :: l) as l'.
    assert (E : forall m, m <> [] -> forall c q, out ((c, q) :: m) = mkVL (piece_cp (pp q) ++ vl_cp (out m)) (vl_disp (out m) ++ pds q) (pisv q && vl_only (out m)) (pp q :: vl_chars (out m))).
    { intros m Hm c q. destruct m; [contradiction|reflexivity]. }
    cbn [map]. unfold refilter at 1. cbn [fst snd]. rewrite !E by (subst l'; discriminate). rewrite IH. reflexivity.
  Qed.
  Lemma refilter_emit : forall f l hv, emit hv (map (refilter f) l) = emit hv l.
  Proof.
    intros f l. induction l as [|[ch p] l IH]; intro hv; [reflexivity|]. destruct l as [|y l]; [reflexivity|]. remember (y :: l) as l'.
    assert (E : forall m, m <> [] -> forall h c q, emit h ((c, q) :: m) = emit (pisv q || h) m).
    { intros m Hm h c q. destruct m; [contradiction|reflexivity]. }
    cbn [map]. unfold refilter at 1. cbn [fst snd]. rewrite !E by (subst l'; discriminate). rewrite IH. reflexivity.
  Qed.

  Theorem same_script_kept : forall label, label <> [] ->
    exists ws, label_variants rm r script label true = Some ws /\
    forall l, replacement rm (considered rm r) [] label l -> produced l ->
      (forall x, In x l -> piece_within script (permitted (label_script script label)) (snd x)) ->
      exists w, In w ws /\ reports w l.
  Proof.
    intros label Hne. unfold label_variants. set (f := match label with [] => None | _ => Some (mixed_filter r script label) end).
    assert (Hf : f = Some (mixed_filter r script label)) by (unfold f; destruct label; [contradiction|reflexivity]). rewrite Hf.
    destruct (gen_spec rm r script Hwf (length label) [] label false true (Some (mixed_filter r script label)) (le_n _)) as [ws [W1 W2]].
    exists ws. split; [exact W1|]. intros l Hl Hp Hin. exists (out (map canon l)). split; [|apply out_reports; intros ->; inversion Hl; subst; contradiction].
    apply W2. exists (map (refilter (mixed_filter r script label)) (map canon l)). split; [|split].
    - apply run_base with (flt := None); auto.
      + intros c Hc Hb. destruct (cp_in_other script (mixed_filter r script label) c) eqn:E; auto. exfalso. cbn [mixed_filter cp_in_other sf_other sf_base] in *.
        destruct c as [|x c]; [contradiction|]. rewrite cp_in_scripts_iff in Hb, E. apply (other_not_base label (script x)); [apply E; left; reflexivity|].
        apply base_scripts_spec. apply Hb. left. reflexivity.
      + apply replacement_run; auto.
      + intros x Hx. apply in_map_iff in Hx. destruct Hx as [y [<- Hy]]. unfold in_filter. apply cp_in_scripts_iff. intros z Hz. apply base_scripts_spec. apply (Hin y Hy z Hz).
    - rewrite refilter_emit. apply (emit_spec r Hwf l false).
      + eapply replacement_entries; [|exact Hl]. intros d t c Hc. apply considered_entry in Hc. apply Hc.
      + destruct Hp as [l0 [x [H1 H2]]]. exists l0, x. auto.
    - symmetry. apply refilter_out.
  Qed.
End Filter.
