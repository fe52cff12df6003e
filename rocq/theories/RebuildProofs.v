From Coq Require Import Permutation.
From Verif Require Import Base BaseFacts CharModel RepSpec RepProofs RangeProofs VariantProofs IterProofs VarSetProofs
  RefModel RefSpec RefProofs LgrModel LgrSpec LgrProofs LgrReach LgrRange LgrInv LgrTags LgrRefs LgrFinal ValidateModel ValidateProofs
  PopulateModel PopulateSpec PopulateProofs CompareSpec CompareProofs CompareFinal SerialModel SerialSpec SerialProofs SerialFinal
  RebuildModel RebuildSpec.
Open Scope string_scope.
Open Scope list_scope.

(** ** Small facts *)
Definition olist {A} (o : option A) : list A := match o with Some a => [a] | None => [] end.
Lemma gathers_olist : forall A B (R : A -> option B -> Prop) a o l r, R a o -> gathers R l r -> gathers R (a :: l) (olist o ++ r).
Proof. intros A B R a [b|] l r H1 H2; cbn; [apply ga_some|apply ga_none]; assumption. Qed.
Lemma gathers_one : forall A B (R : A -> option B -> Prop) a o, R a o -> gathers R [a] (olist o).
Proof. intros A B R a o H. rewrite <- (app_nil_r (olist o)). apply gathers_olist; [exact H|constructor]. Qed.

Lemma bad_dec : forall db x, bad db x \/ ~ bad db x.
Proof.
  intros [d|] x; [|right; intros [d [H _]]; discriminate]. destruct (db_idna_valid d x) eqn:E.
  - right. intros [d' [H H']]. injection H as H. subst. congruence.
  - left. exists d. auto.
Qed.
Lemma first_bad_dec : forall db c, (exists x, first_such (bad db) c x) \/ (forall y, In y c -> ~ bad db y).
Proof.
  intros db. induction c as [|x c IH]; [right; intros y []|]. destruct (bad_dec db x) as [H|H].
  - left. exists x. apply first_such_here. exact H.
  - destruct IH as [[y Hy]|IH].
    + left. exists y. apply first_such_cons_neg; assumption.
    + right. intros y [Hy|Hy]; [subst; exact H|apply IH; exact Hy].
Qed.

(** ** The target while it is filled *)
Definition growing (db : option unidb) (R : refman) (t : lgr) : Prop :=
  lgr_reachable t /\ lg_db t = db /\ lg_raise t = true /\ lg_refs t = R.
Lemma growing_step : forall db R t o, growing db R t ->
  match o with LAddReference _ _ _ | LDelReference _ | LCopy => False | _ => True end -> growing db R (fst (lgr_step t o)).
Proof.
  intros db R t o [H1 [H2 [H3 H4]]] Ho. destruct (step_db t o) as [D1 D2]; [intros ->; exact Ho|]. pose proof (step_refs t o) as D3.
  split; [apply lgr_reachable_step; exact H1|]. split; [congruence|]. split; [congruence|].
  destruct o; try contradiction; congruence.
Qed.
Lemma growing_bad : forall db R t x, growing db R t -> (idna_invalid t x <-> bad db x).
Proof. intros db R t x [_ [H _]]. unfold idna_invalid, bad. rewrite H. tauto. Qed.

Lemma replay_refs : forall ops g db allow, lgr_reachable (set_refs (new_lgr db allow) (lg_refs g)) ->
  lgr_reachable (set_refs (new_lgr db allow) (lg_refs (fst (lgr_run g ops)))).
Proof.
  induction ops as [|o ops IH]; intros g db allow H; [exact H|]. cbn [lgr_run].
  assert (H1 : lgr_reachable (set_refs (new_lgr db allow) (lg_refs (fst (lgr_step g o))))).
  { pose proof (step_refs g o) as Hs. pose proof (lgr_reachable_step _ o H) as Hr.
    destruct o; try (rewrite Hs; exact H); clear Hs; unfold lgr_step in *.
    - unfold lgr_add_reference in *. cbn [set_refs lg_refs] in Hr. destruct (rm_add _ _ _ _) as [m [s|e]]; exact Hr.
    - unfold lgr_del_reference in *. cbn [set_rep set_refs lg_refs] in *. destruct (rm_del _ _) as [m [s|e]]; exact Hr. }
  destruct (lgr_step g o) as [g1 x]. cbn [fst] in H1. specialize (IH g1 db allow H1). destruct (lgr_run g1 ops) as [g2 xs]. exact IH.
Qed.
Lemma target_starts : forall g db, lgr_reachable g -> growing db (lg_refs g) (set_refs (new_lgr db false) (lg_refs g)).
Proof.
  intros g db [d [al [ops H]]]. split; [|repeat split]. subst g. apply replay_refs.
  exists db, false, []. reflexivity.
Qed.

(** ** Facts about the entries of a proper LGR *)
Record entry_ok (R : refman) (ch : char) : Prop := {
  eo_wf : wf_char ch;
  eo_ord : orderly_char ch;
  eo_refs : okrefs R (ch_refs ch);
  eo_vars : forall v, In v (get_variants ch) -> v_cp v <> [] /\ one_context (v_when v) (v_not_when v) /\ okrefs R (v_refs v)
}.
Lemma entries_ok : forall g ch, proper g -> In ch (rep_iter (lg_rep g)) -> entry_ok (lg_refs g) ch.
Proof.
  intros g ch Hp Hin. pose proof (proper_tidy g Hp) as Hti. pose proof (tidy_reachable g Hti) as Hre.
  pose proof (lgr_reachable_wf g Hre) as Hwf. pose proof (proper_ref_tidy g Hp) as Hrt. destruct (ref_tidy_inv g Hrt) as [_ Hrp].
  destruct (iter_general _ Hwf) as [_ [_ [Hsub _]]]. apply Hsub in Hin. apply in_all_chars_lk in Hin; [|exact Hwf].
  destruct (Hrp _ _ Hin) as [P1 P2]. pose proof (lk_wf _ _ _ Hwf Hin) as Hw.
  split; [exact Hw|apply (proper_orderly g Hp _ _ Hin)|exact P1|].
  intros v Hv. split; [eapply variant_cp_nonempty; eauto; rewrite lookup_lk; exact Hin|].
  split; [apply (proper_orderly g Hp _ _ Hin); exact Hv|apply P2; exact Hv].
Qed.

Section Checks.
  Variable db : option unidb.
  Variable vr : option lgr.
  Variable R : refman.
  Hypothesis Hans : answers db vr.

  Lemma vr_refuses : forall v ov fo whole x e, vr = Some v -> ~ bad db x -> refused_by v ov fo whole x e ->
    ~ present v [x] /\ ov = false /\ fo = false /\ e = NotInRepertoire whole.
  Proof.
    intros v ov fo whole x e Hv Hb [[H1 [H2 _]]|[_ H]]; [|exact H]. exfalso. apply Hb. apply Hans. exists v. auto.
  Qed.
  Lemma present_dec : forall g c, present g c \/ ~ present g c.
  Proof. intros g c. unfold present. destruct (lookup (lg_rep g) c); [left; discriminate|right; congruence]. Qed.

  (** The code point itself. *)
  Lemma rebuild_cp_ok : forall t ch, growing db R t -> entry_ok R ch -> is_range ch = false -> lk (lg_rep t) (ch_cp ch) = None ->
    exists t1 o, rebuild_cp vr t ch = (t1, Ok (olist o)) /\ objection db vr (ch_cp ch) o /\ growing db R t1 /\
      (forall x, x <> ch_cp ch -> lk (lg_rep t1) x = lk (lg_rep t) x) /\
      ((forall y, In y (ch_cp ch) -> ~ bad db y) -> exists k, lk (lg_rep t1) (ch_cp ch) = Some k /\ is_range k = false /\ get_variants k = []).
  Proof.
    intros t ch Ht Hok Hr Hc. destruct (plain_kind ch (eo_wf _ _ Hok) Hr) as [Hk Hne].
    destruct (eo_ord _ _ Hok) as [O1 [O2 [O3 O4]]]. pose proof (eo_refs _ _ Hok) as Hrf.
    pose proof Ht as [T1 [T2 [T3 T4]]]. unfold rebuild_cp.
    set (c := ch_cp ch) in *. set (cm := ch_comment ch). set (rf := ch_refs ch) in *. set (tg := ch_tags ch) in *. set (w := ch_when ch) in *. set (nw := ch_not_when ch) in *.
    assert (Hgood : forall vr' fo, (forall y, In y c -> ~ bad db y) ->
      (forall e, ~ chk_validating vr' false fo c c e) ->
      exists t1, lgr_add_cp t c cm rf tg w nw vr' false fo = (t1, Ok tt) /\ growing db R t1 /\
        (forall x, x <> c -> lk (lg_rep t1) x = lk (lg_rep t) x) /\
        exists k, lk (lg_rep t1) c = Some k /\ is_range k = false /\ get_variants k = []).
    { intros vr' fo Hnb Hval. pose proof (growing_step db R t (LAddCp c cm rf tg w nw vr' false fo) Ht I) as Hre. unfold lgr_step in Hre.
      destruct (add_cp_spec t c cm rf tg w nw vr' false fo) as [r [A1 A2]].
      destruct (lgr_add_cp t c cm rf tg w nw vr' false fo) as [t1 x]. cbn [fst] in Hre.
      assert (r = None) as ->.
      { unfold add_cp_checks in A1. cbn [first_failing] in A1.
        destruct A1 as [[e [[H _] _]]|[_ A1]]; [contradiction|].
        destruct A1 as [[e [[Hra [y [Hy _]]] _]]|[_ A1]].
        { apply first_such_In in Hy. destruct Hy as [Hy1 Hy2]. exfalso. apply (Hnb y Hy1). apply (growing_bad db R t y Ht). exact Hy2. }
        destruct A1 as [[e [[_ [H1 [H2 _]]] _]]|[_ A1]]; [destruct O3; contradiction|].
        destruct A1 as [[e [H _]]|[_ A1]]; [exfalso; apply (Hval e); exact H|].
        destruct A1 as [[e [[_ [y [Hy _]]] _]]|[_ A1]].
        { apply first_such_In in Hy. destruct Hy as [Hy1 Hy2]. exfalso. apply Hy2. unfold defined_ref. rewrite T4. apply Hrf. exact Hy1. }
        destruct A1 as [[e [[_ [Hy _]] _]]|[_ A1]]; [exfalso; apply Hy; apply Hrf|].
        destruct A1 as [[e [[_ [H1 [H2 _]]] _]]|[_ A1]]; [exfalso; apply H2; apply O2; exact H1|].
        destruct A1 as [[e [[_ [Hy _]] _]]|[_ A1]]; [contradiction|].
        destruct A1 as [[e [[Hy _] _]]|[_ A1]]; [exfalso; apply Hy; rewrite lookup_lk; exact Hc|]. exact A1. }
      destruct A2 as [A2 [A3 [A4 _]]]. subst x. exists t1. split; [reflexivity|]. split; [exact Hre|]. split.
      - intros x Hx. specialize (A4 x Hx). rewrite !lookup_lk in A4. exact A4.
      - rewrite lookup_lk in A3. eexists. split; [exact A3|]. split; [|reflexivity]. unfold is_range. cbn [ch_kind].
        rewrite <- Hk. exact Hr. }
    destruct (first_bad_dec db c) as [[x Hx]|Hnb].
    - (* refused by the database *)
      exists t, (Some (CharInvalidIdnaProperty [x])).
      destruct (add_cp_spec t c cm rf tg w nw vr false false) as [r [A1 A2]].
      destruct (lgr_add_cp t c cm rf tg w nw vr false false) as [t1 o].
      assert (Hfs : first_such (idna_invalid t) c x).
      { destruct Hx as [pre [post [E1 [E2 E3]]]]. exists pre, post. split; [exact E1|]. split; [apply (growing_bad db R t x Ht); exact E2|].
        intros y Hy Hi. apply (E3 y Hy). apply (growing_bad db R t y Ht). exact Hi. }
      assert (r = Some (CharInvalidIdnaProperty [x])) as ->.
      { unfold add_cp_checks in A1. cbn [first_failing] in A1.
        destruct A1 as [[e [[H _] _]]|[_ A1]]; [contradiction|].
        destruct A1 as [[e [[_ [y [Hy He]]] Hr0]]|[H A1]].
        - subst. rewrite (first_such_unique _ _ _ _ _ Hy Hfs). reflexivity.
        - exfalso. apply (H (CharInvalidIdnaProperty [x])). split; [exact T3|]. exists x. auto. }
      destruct A2 as [A2 A3]. subst o t1. cbn [is_lgr_exception is_idna_error negb].
      split; [reflexivity|]. split; [apply ob_idna; exact Hx|]. split; [exact Ht|]. split; [reflexivity|].
      intro H. exfalso. apply first_such_In in Hx. apply (H x); apply Hx.
    - assert (Hv : (exists v x, vr = Some v /\ In x c /\ ~ present v [x]) \/ (forall v y, vr = Some v -> In y c -> present v [y])).
      { destruct vr as [v|]; [|right; discriminate].
        assert (H : (exists x, In x c /\ ~ present v [x]) \/ (forall y, In y c -> present v [y])).
        { clear. induction c as [|x c IH]; [right; intros y []|]. destruct (present_dec v [x]) as [H|H].
          - destruct IH as [[y [Y1 Y2]]|IH]; [left; exists y; split; [right; exact Y1|exact Y2]|].
            right. intros y [Hy|Hy]; [subst; exact H|apply IH; exact Hy].
          - left. exists x. split; [left; reflexivity|exact H]. }
        destruct H as [[x [H1 H2]]|H]; [left; exists v, x; auto|right]. intros v' y E Hy. injection E as E. subst. apply H. exact Hy. }
      destruct Hv as [[v [x [Hv [Hx Hxp]]]]|Hv].
      + (* absent from the validating repertoire *)
        destruct (add_cp_spec t c cm rf tg w nw vr false false) as [r [A1 A2]].
        destruct (lgr_add_cp t c cm rf tg w nw vr false false) as [t1 o].
        assert (r = Some (NotInRepertoire c)) as ->.
        { unfold add_cp_checks in A1. cbn [first_failing] in A1.
          destruct A1 as [[e [[H _] _]]|[_ A1]]; [contradiction|].
          destruct A1 as [[e [[Hra [y [Hy _]]] _]]|[_ A1]].
          { apply first_such_In in Hy. destruct Hy as [Hy1 Hy2]. exfalso. apply (Hnb y Hy1). apply (growing_bad db R t y Ht). exact Hy2. }
          destruct A1 as [[e [[_ [H1 [H2 _]]] _]]|[_ A1]]; [destruct O3; contradiction|].
          destruct A1 as [[e [[v' [y [E [Hy Hry]]]] Hr0]]|[H A1]].
          - apply first_such_In in Hy. destruct Hy as [Hy _]. destruct (vr_refuses v' false false c y e E (Hnb y Hy) Hry) as [_ [_ [_ He]]]. congruence.
          - exfalso. destruct (check_validating_cases vr false false c c) as [[e [_ He]]|[He _]]; [apply (H e); exact He|].
            unfold check_validating in He. rewrite Hv in He. destruct (check_against_cases v false false c c) as [[e [He2 _]]|[_ He2]]; [congruence|].
            apply (He2 x (NotInRepertoire c) Hx). right. repeat split; auto. intros [G1 G2]. apply (Hnb x Hx). apply Hans. exists v. auto. }
        destruct A2 as [A2 A3]. subst o t1. cbn [is_lgr_exception is_idna_error negb].
        destruct (Hgood None true Hnb) as [t1 [G1 [G2 [G3 G4]]]].
        { intros e [v' [y [E _]]]. discriminate. }
        rewrite G1. exists t1, (Some (NotInRepertoire c)). split; [reflexivity|]. split; [eapply ob_absent; eauto|].
        split; [exact G2|]. split; [exact G3|]. intros _. exact G4.
      + destruct (Hgood vr false Hnb) as [t1 [G1 [G2 [G3 G4]]]].
        { intros e [v' [y [E [Hy Hry]]]]. apply first_such_In in Hy. destruct Hy as [Hy _].
          destruct (vr_refuses v' false false c y e E (Hnb y Hy) Hry) as [Hp _]. apply Hp. apply Hv; assumption. }
        rewrite G1. exists t1, None. split; [reflexivity|]. split; [apply ob_none; assumption|].
        split; [exact G2|]. split; [exact G3|]. intros _. exact G4.
  Qed.

  Lemma convert_good : forall t c, growing db R t -> c <> [] -> (forall y, In y c -> ~ bad db y) -> check_convert t c = Ok c.
  Proof.
    intros t c Ht Hne H. destruct (check_convert_cases t c) as [[e [_ [[H1 _]|[_ [_ [x [H2 _]]]]]]]|[H1 _]]; [contradiction| |exact H1].
    exfalso. apply first_such_In in H2. destruct H2 as [H2 H3]. apply (H x H2). apply (growing_bad db R t x Ht). exact H3.
  Qed.
  Lemma convert_bad : forall t c x, growing db R t -> first_such (bad db) c x -> check_convert t c = Raise (CharInvalidIdnaProperty [x]).
  Proof.
    intros t c x Ht Hx. assert (Hin : In x c /\ bad db x) by (apply first_such_In; exact Hx). 
    assert (Hfs : first_such (idna_invalid t) c x).
    { destruct Hx as [pre [post [E1 [E2 E3]]]]. exists pre, post. split; [exact E1|]. split; [apply (growing_bad db R t x Ht); exact E2|].
      intros y Hy Hi. apply (E3 y Hy). apply (growing_bad db R t y Ht). exact Hi. }
    destruct (check_convert_cases t c) as [[e [E [[H1 _]|[_ [_ [y [H2 He]]]]]]]|[E [_ H1]]].
    - subst c. destruct Hin as [[] _].
    - rewrite E, He. rewrite (first_such_unique _ _ _ _ _ H2 Hfs). reflexivity.
    - exfalso. apply (proj2 H1 (CharInvalidIdnaProperty [x])). split; [apply Ht|]. exists x. auto.
  Qed.
  Lemma check_vr_ok : forall whole v, (forall y, In y v -> ~ bad db y) -> check_validating vr true false whole v = Ok tt.
  Proof.
    intros whole v H. destruct (check_validating_cases vr true false whole v) as [[e [_ [v' [y [E [Hy Hry]]]]]]|[E _]]; [|exact E].
    exfalso. apply first_such_In in Hy. destruct Hy as [Hy _]. destruct (vr_refuses v' true false whole y e E (H y Hy) Hry) as [_ [Ho _]]. discriminate.
  Qed.
  Lemma first_such_app_l : forall (P : N -> Prop) a b x, first_such P a x -> first_such P (a ++ b) x.
  Proof. intros P a b x [pre [post [E [H1 H2]]]]. exists pre, (post ++ b). split; [subst; rewrite <- app_assoc; reflexivity|auto]. Qed.
  Lemma first_such_app_r : forall (P : N -> Prop) a b x, (forall y, In y a -> ~ P y) -> first_such P b x -> first_such P (a ++ b) x.
  Proof.
    intros P a b x Ha [pre [post [E [H1 H2]]]]. exists (a ++ pre), post. split; [subst; rewrite app_assoc; reflexivity|]. split; [exact H1|].
    intros y Hy. apply in_app_iff in Hy. destruct Hy as [Hy|Hy]; [apply Ha; exact Hy|apply H2; exact Hy].
  Qed.

  (** The variants. *)
  Lemma rebuild_variants_ok : forall c vs t, growing db R t -> c <> [] ->
    ((exists x, first_such (bad db) c x) \/
     ((forall y, In y c -> ~ bad db y) /\ exists k, lk (lg_rep t) c = Some k /\ is_range k = false /\
        forall v, In v vs -> ~ In (vkey v) (map vkey (get_variants k)))) ->
    NoDup (map vkey vs) -> (forall v, In v vs -> v_cp v <> [] /\ one_context (v_when v) (v_not_when v) /\ okrefs R (v_refs v)) ->
    exists t' is, rebuild_variants t vr c vs = (t', Ok is) /\ gathers (var_objection db c) vs is /\ growing db R t' /\
      (forall x, x <> c -> lk (lg_rep t') x = lk (lg_rep t) x).
  Proof.
    intros c. induction vs as [|v vs IH]; intros t Ht Hne Hc Hn Hv.
    - exists t, []. split; [reflexivity|]. split; [constructor|]. split; [exact Ht|reflexivity].
    - cbn [map] in Hn. inversion Hn as [|? ? N1 N2]; subst. cbn [rebuild_variants].
      destruct (Hv v (or_introl eq_refl)) as [Hvne [Hcx Hrf]].
      assert (Hv' : forall u, In u vs -> v_cp u <> [] /\ one_context (v_when u) (v_not_when u) /\ okrefs R (v_refs u)) by (intros u Hu; apply Hv; right; exact Hu).
      destruct Hc as [[x Hx]|[Hg [k [K1 [K2 K3]]]]].
      + unfold lgr_add_variant at 1. rewrite (convert_bad t c x Ht Hx). cbn [bind is_lgr_exception is_idna_error negb].
        destruct (IH t Ht Hne (or_introl (ex_intro _ x Hx)) N2 Hv') as [t' [is [E1 [E2 [E3 E4]]]]].
        rewrite E1. cbn [bind app]. exists t', ((v, CharInvalidIdnaProperty [x]) :: is). split; [reflexivity|].
        split; [apply ga_some; [apply vo_idna; apply first_such_app_l; exact Hx|exact E2]|]. auto.
      + destruct (first_bad_dec db (v_cp v)) as [[x Hx]|Hvg].
        * unfold lgr_add_variant at 1. rewrite (convert_good t c Ht Hne Hg). cbn [bind]. rewrite (convert_bad t (v_cp v) x Ht Hx).
          cbn [bind is_lgr_exception is_idna_error negb].
          destruct (IH t Ht Hne) as [t' [is [E1 [E2 [E3 E4]]]]].
          { right. split; [exact Hg|]. exists k. split; [exact K1|]. split; [exact K2|]. intros u Hu. apply K3. right. exact Hu. }
          { exact N2. }
          { exact Hv'. }
          rewrite E1. cbn [bind app]. exists t', ((v, CharInvalidIdnaProperty [x]) :: is). split; [reflexivity|].
          split; [apply ga_some; [apply vo_idna; apply first_such_app_r; assumption|exact E2]|]. auto.
        * assert (Heq : lgr_add_variant t c (v_cp v) (v_type v) (v_when v) (v_not_when v) (v_comment v) (v_refs v) vr true false =
                        put_variant t c (v_cp v) (v_type v) (v_when v) (v_not_when v) (v_comment v) (v_refs v)).
          { unfold put_variant, lgr_add_variant. rewrite (convert_good t c Ht Hne Hg). cbn [bind]. rewrite (convert_good t (v_cp v) Ht Hvne Hvg). cbn [bind].
            rewrite (check_vr_ok c (v_cp v) Hvg). reflexivity. }
          rewrite Heq. pose proof (growing_step db R t (LAddVariant c (v_cp v) (v_type v) (v_when v) (v_not_when v) (v_comment v) (v_refs v) None false false) Ht I) as Hgr.
          unfold lgr_step in Hgr.
          pose proof (put_variant_spec t c k (v_cp v) (v_type v) (v_when v) (v_not_when v) (v_comment v) (v_refs v) (proj1 Ht) K1
            (convert_good t (v_cp v) Ht Hvne Hvg)) as Hp. unfold put_variant in *.
          destruct (lgr_add_variant t c (v_cp v) (v_type v) (v_when v) (v_not_when v) (v_comment v) (v_refs v) None false false) as [t1 o] eqn:Eg.
          cbn [fst] in Hgr. destruct Hp as [P1 P2]. destruct P2 as [[P2 [_ [k1 [P3 [P4 P5]]]]]|[e [_ [_ [_ P2]]]]].
          2:{ exfalso. destruct P2 as [P2|[[P2 P3]|[P2|[[x [Hx Hx2]]|P2]]]].
              - congruence.
              - destruct Hcx; contradiction.
              - apply P2. apply Hrf.
              - apply Hx2. unfold defined_ref. destruct Ht as [_ [_ [_ ->]]]. apply Hrf. exact Hx.
              - apply (K3 v (or_introl eq_refl)). exact P2. }
          subst o. destruct (IH t1 Hgr Hne) as [t' [is [E1 [E2 [E3 E4]]]]].
          { right. split; [exact Hg|]. exists k1. split; [apply (updated_lk_c _ _ _ _ P3)|]. split; [rewrite (same_entry_range _ _ P4); exact K2|].
            intros u Hu Hk. apply in_map_iff in Hk. destruct Hk as [z [Hz1 Hz2]]. apply P5 in Hz2. destruct Hz2 as [Hz2|Hz2].
            - apply N1. subst z. assert (Hz : vkey v = vkey u) by exact Hz1. rewrite Hz. apply in_map. exact Hu.
            - apply (K3 u (or_intror Hu)). rewrite <- Hz1. apply in_map. exact Hz2. }
          { exact N2. }
          { exact Hv'. }
          rewrite E1. cbn [bind app]. exists t', is. split; [reflexivity|].
          split; [apply ga_none; [apply vo_none|exact E2]|].
          { intros y Hy. apply in_app_iff in Hy. destruct Hy as [Hy|Hy]; [apply Hg|apply Hvg]; exact Hy. }
          split; [exact E3|]. intros x Hx. rewrite E4 by exact Hx. apply (updated_lk_other _ _ _ _ _ P3). exact Hx.
  Qed.

  Variable d : unidb.
  Variable script : unidb -> N -> option string.
  Variable scripts : list string.

  Lemma script_ok_iff : forall x, script_ok scripts (script d x) = true <-> of_script (script d) scripts x.
  Proof.
    intro x. unfold script_ok, of_script. destruct (script d x) as [s|]; [|split; [intros _; right; left; reflexivity|reflexivity]].
    destruct (memb String.eqb s scripts) eqn:E1.
    - apply (memb_In _ _ string_eqb_iff) in E1. rewrite andb_false_r. cbn. split; [|reflexivity]. intros _. right. right. exists s. auto.
    - destruct (memb String.eqb s ["Zyyy"; "Zinh"]) eqn:E2.
      + rewrite !andb_false_r. split; [|reflexivity]. intros _. right. right. exists s. split; [reflexivity|]. right.
        apply (memb_In _ _ string_eqb_iff) in E2. destruct E2 as [E2|[E2|[]]]; subst; auto.
      + apply (memb_false _ _ string_eqb_iff) in E1. apply (memb_false _ _ string_eqb_iff) in E2.
        destruct scripts as [|s0 ss] eqn:Es; cbn [andb negb].
        * split; [|reflexivity]. intros _. left. reflexivity.
        * split; [discriminate|]. intros [H|[H|[s' [H1 [H2|[H2|H2]]]]]]; try discriminate; injection H1 as H1; subst s'.
          -- contradiction.
          -- exfalso. apply E2. subst. left. reflexivity.
          -- exfalso. apply E2. subst. right. left. reflexivity.
  Qed.
  Lemma in_script_cases : forall c, c <> [] -> exists b, cp_in_script script scripts (Some d) c = Ok b /\
    script_objection (script d) scripts c (if b then None else Some c).
  Proof.
    intros c Hne. unfold cp_in_script. destruct c as [|x0 c0]; [contradiction|]. clear Hne.
    set (c := x0 :: c0). destruct (forallb (fun x => script_ok scripts (script d x)) c) eqn:E; eexists; (split; [reflexivity|]).
    - apply so_in. intros x Hx. apply script_ok_iff. rewrite forallb_forall in E. apply E. exact Hx.
    - assert (H : exists x, In x c /\ script_ok scripts (script d x) = false).
      { clearbody c. clear -E. induction c as [|y c IH]; [discriminate|]. cbn [forallb] in E. destruct (script_ok scripts (script d y)) eqn:Ey.
        - destruct (IH E) as [x [H1 H2]]. exists x. split; [right; exact H1|exact H2].
        - exists y. split; [left; reflexivity|exact Ey]. }
      destruct H as [x [H1 H2]]. apply (so_out _ _ _ x H1). intro Ho. apply script_ok_iff in Ho. congruence.
  Qed.

  Lemma status_objection : forall t x s, growing db R t -> lk (lg_rep t) [x] = None -> range_status t vr x s -> objection db vr [x] s.
  Proof.
    intros t x s Ht Hf Hs. inversion Hs as [Hi|v Hi Hv Hp|Hi Hv Hp|Hi Hv Hp]; subst.
    - apply ob_idna. apply first_such_here. apply (growing_bad db R t x Ht). exact Hi.
    - eapply ob_absent; [|reflexivity|left; reflexivity|exact Hp]. intros y [Hy|[]]. subst. rewrite <- (growing_bad db R t y Ht). exact Hi.
    - exfalso. apply Hp. rewrite lookup_lk. exact Hf.
    - apply ob_none.
      + intros y [Hy|[]]. subst. rewrite <- (growing_bad db R t y Ht). exact Hi.
      + intros v y E [Hy|[]]. subst y. apply Hv. exact E.
  Qed.

  Lemma rebuild_range_ok : forall t ch f l, growing db R t -> entry_ok R ch -> ch_kind ch = KRange f l ->
    (forall y, f <= y <= l -> lk (lg_rep t) [y] = None) ->
    exists t' i, rebuild_range script scripts (Some d) vr t ch f l = (t', Ok i) /\ issue_for db vr (script d) scripts ch i /\ growing db R t' /\
      (forall x, cover ch x = None -> lk (lg_rep t') x = lk (lg_rep t) x).
  Proof.
    intros t ch f l Ht Hok Hk Hfree. pose proof (eo_wf _ _ Hok) as [_ Hfl]. rewrite Hk in Hfl. destruct Hfl as [Hfl [_ Hnv]].
    destruct (eo_ord _ _ Hok) as [O1 [O2 [O3 O4]]]. pose proof (eo_refs _ _ Hok) as Hrf.
    assert (Hnv' : get_variants ch = []) by (unfold get_variants; rewrite Hnv; reflexivity).
    unfold rebuild_range. destruct (check_range_spec t f l vr) as [[H _]|[_ [[x [Hx _]]|[st [E [Hst Hs]]]]]]; [lia| |].
    { exfalso. apply first_such_In in Hx. destruct Hx as [_ [H1 H2]]. apply H1. apply (growing_bad db R t x Ht). apply Hans. exact H2. }
    rewrite E.
    set (err := fun s : N * option exn => match snd s with Some e => [e] | None => [] end).
    assert (Herr : gathers (objection db vr) (map (fun x => [x]) (nrange f l)) (flat_map err st)).
    { assert (Hfree' : forall x s, In (x, s) st -> lk (lg_rep t) [x] = None).
      { intros x s Hin. apply Hfree. apply nrange_In. rewrite <- Hst. apply (in_map fst _ _ Hin). }
      rewrite <- Hst. clear E Hst. induction st as [|[x s] st IH]; [constructor|]. cbn [map flat_map fst].
      change (err (x, s)) with (olist s). apply gathers_olist.
      - eapply status_objection; [exact Ht|eapply Hfree'; left; reflexivity|apply Hs; left; reflexivity].
      - apply IH; intros; [apply Hs|eapply Hfree']; right; eassumption. }
    assert (Hw : exists ws, mapM_res (fun s : N * option exn => bind (cp_in_script script scripts (Some d) [fst s]) (fun b => Ok (if b then [] else [[fst s]]))) st = Ok ws /\
      gathers (script_objection (script d) scripts) (map (fun x => [x]) (nrange f l)) (List.concat ws)).
    { rewrite <- Hst. clear. induction st as [|[x s] st IH]; [exists []; split; [reflexivity|constructor]|].
      cbn [map mapM_res fst]. destruct (in_script_cases [x] ltac:(discriminate)) as [b [E1 E2]]. rewrite E1. cbn [bind].
      destruct IH as [ws [I1 I2]]. rewrite I1. cbn [bind]. eexists. split; [reflexivity|]. cbn [List.concat].
      replace (if b then [] else [[x]]) with (olist (if b then None else Some [x])) by (destruct b; reflexivity).
      apply gathers_olist; assumption. }
    destruct Hw as [ws [Hw1 Hw2]]. rewrite Hw1.
    assert (Hparts : parts ch = map (fun x => [x]) (nrange f l)) by (unfold parts; rewrite Hk; reflexivity).
    assert (Hissue : forall e w, e = flat_map err st -> w = List.concat ws -> issue_for db vr (script d) scripts ch (mkRI ch e w [])).
    { intros e w He Hwe. subst. unfold issue_for. cbn [ri_char ri_errors ri_warnings ri_variants]. rewrite Hparts, Hnv'.
      split; [reflexivity|]. split; [exact Herr|]. split; [exact Hw2|constructor]. }
    destruct (flat_map err st) as [|e0 es] eqn:Ee.
    2:{ eexists t, _. split; [reflexivity|]. split; [apply Hissue; reflexivity|]. split; [exact Ht|auto]. }
    destruct (List.concat ws) as [|w0 ws0] eqn:Ew.
    2:{ eexists t, _. split; [reflexivity|]. split; [apply Hissue; reflexivity|]. split; [exact Ht|auto]. }
    assert (Hall : forall y, f <= y <= l -> range_status t vr y None).
    { intros y Hy. apply nrange_In in Hy. rewrite <- Hst in Hy. apply in_map_iff in Hy. destruct Hy as [[y' s] [Hy1 Hy2]]. cbn in Hy1. subst y'.
      pose proof (Hs _ _ Hy2) as H. destruct s as [e|]; [|exact H]. exfalso.
      assert (Hin : In e (flat_map err st)) by (apply in_flat_map; exists (y, Some e); split; [exact Hy2|left; reflexivity]). rewrite Ee in Hin. destruct Hin. }
    set (cm := ch_comment ch) in *. set (rf := ch_refs ch) in *. set (tg := ch_tags ch) in *. set (w := ch_when ch) in *. set (nw := ch_not_when ch) in *.
    pose proof (growing_step db R t (LAddRange f l cm rf tg w nw vr false false) Ht I) as Hgr. unfold lgr_step in Hgr.
    destruct (add_range_spec t f l cm rf tg w nw vr false false (lgr_reachable_wf t (proj1 Ht))) as [r [A1 A2]]. cbv zeta in A2.
    destruct (lgr_add_range t f l cm rf tg w nw vr false false) as [t' o]. cbn [fst] in Hgr.
    assert (r = None) as ->.
    { unfold add_range_checks in A1. cbn [first_failing] in A1.
      destruct A1 as [[e [[H _] _]]|[_ A1]]; [exfalso; lia|].
      destruct A1 as [[e [[_ [H1 [H2 _]]] _]]|[_ A1]]; [destruct O3; contradiction|].
      destruct A1 as [[e [[y [H _]] _]]|[_ A1]].
      { exfalso. apply first_such_In in H. destruct H as [_ [H1 H2]]. apply H1. apply (growing_bad db R t y Ht). apply Hans. exact H2. }
      destruct A1 as [[e [[y [H H2]] _]]|[_ A1]].
      { exfalso. apply first_such_In in H. destruct H as [Hy [e' H]]. apply nrange_In in Hy. pose proof (Hall y Hy) as Ha.
        inversion H as [Hs' Z1 Z2 Z3|Hi Hra Z1 Z2|Hs' Z1 Z2].
        - pose proof (range_status_unique _ _ _ _ _ Ha Hs'). discriminate.
        - inversion Ha. contradiction.
        - pose proof (range_status_unique _ _ _ _ _ Ha Hs'). discriminate. }
      destruct A1 as [[e [[_ [y [Hy _]]] _]]|[_ A1]].
      { apply first_such_In in Hy. destruct Hy as [Hy1 Hy2]. exfalso. apply Hy2. unfold defined_ref. destruct Ht as [_ [_ [_ ->]]]. apply Hrf. exact Hy1. }
      destruct A1 as [[e [[_ [Hy _]] _]]|[_ A1]]; [exfalso; apply Hy; apply Hrf|].
      destruct A1 as [[e [[_ [Hy _]] _]]|[_ A1]]; [contradiction|].
      destruct A1 as [[e [[Hy _] _]]|[_ A1]]; [exfalso; apply (Hy f); [lia|left; apply Hall; lia]|]. exact A1. }
    destruct A2 as [[A2 [_ [_ A3]]]|[z [_ [[Z1 _] [Z2 _]]]]].
    2:{ exfalso. apply Z2. rewrite lookup_lk. apply Hfree. exact Z1. }
    subst o. eexists t', _. split; [reflexivity|]. split; [apply Hissue; reflexivity|]. split; [exact Hgr|].
    intros x Hx. specialize (A3 x). rewrite !lookup_lk in A3. apply A3. intros y Hy [H _]. subst x.
    unfold cover in Hx. rewrite Hk in Hx. destruct H as [Y1 Y2]. apply N.leb_le in Y1. apply N.leb_le in Y2. rewrite Y1, Y2 in Hx. discriminate.
  Qed.

  Lemma rebuild_char_ok : forall t ch, growing db R t -> entry_ok R ch -> (forall x, cover ch x <> None -> lk (lg_rep t) x = None) ->
    exists t' i, rebuild_char script scripts (Some d) vr t ch = (t', Ok i) /\ issue_for db vr (script d) scripts ch i /\ growing db R t' /\
      (forall x, cover ch x = None -> lk (lg_rep t') x = lk (lg_rep t) x).
  Proof.
    intros t ch Ht Hok Hfree. unfold rebuild_char. destruct (is_range ch) eqn:Er.
    - unfold is_range in Er. destruct (ch_kind ch) as [| |f l] eqn:Ek; try discriminate. apply rebuild_range_ok; auto.
      intros y Hy. apply Hfree. unfold cover. rewrite Ek. destruct Hy as [Y1 Y2]. apply N.leb_le in Y1. apply N.leb_le in Y2. rewrite Y1, Y2. discriminate.
    - destruct (plain_kind ch (eo_wf _ _ Hok) Er) as [Hk Hne].
      assert (Hsingle : exists t' i, match cp_in_script script scripts (Some d) (ch_cp ch) with
        | Raise e => (t, Raise e)
        | Ok b => let warnings := if b then [] else [ch_cp ch] in
                  let '(t1, o) := rebuild_cp vr t ch in
                  match o with
                  | Raise e => (t1, Raise e)
                  | Ok errors => let '(t2, vs) := rebuild_variants t1 vr (ch_cp ch) (get_variants ch) in
                                 (t2, bind vs (fun vs => Ok (mkRI ch errors warnings vs)))
                  end
        end = (t', Ok i) /\ issue_for db vr (script d) scripts ch i /\ growing db R t' /\
        (forall x, cover ch x = None -> lk (lg_rep t') x = lk (lg_rep t) x)).
      { destruct (in_script_cases (ch_cp ch) Hne) as [b [E1 E2]]. rewrite E1. cbv zeta.
        destruct (rebuild_cp_ok t ch Ht Hok Er) as [t1 [o [C1 [C2 [C3 [C4 C5]]]]]].
        { apply Hfree. rewrite (cover_self ch Er), cps_eqb_refl. discriminate. }
        rewrite C1. destruct (rebuild_variants_ok (ch_cp ch) (get_variants ch) t1 C3 Hne) as [t2 [is [V1 [V2 [V3 V4]]]]].
        { destruct (first_bad_dec db (ch_cp ch)) as [H|H]; [left; exact H|right]. split; [exact H|].
          destruct (C5 H) as [k [K1 [K2 K3]]]. exists k. split; [exact K1|]. split; [exact K2|]. rewrite K3. intros v _ []. }
        { apply get_variants_NoDup. apply Hok. }
        { apply Hok. }
        rewrite V1. cbn [bind]. eexists t2, _. split; [reflexivity|]. split; [|split; [exact V3|]].
        - assert (Hp : parts ch = [ch_cp ch]).
          { unfold parts. unfold is_range in Er. destruct (ch_kind ch); [reflexivity|reflexivity|discriminate]. }
          unfold issue_for. cbn [ri_char ri_errors ri_warnings ri_variants]. rewrite Hp. split; [reflexivity|].
          split; [apply gathers_one; exact C2|]. split; [|exact V2].
          replace (if b then [] else [ch_cp ch]) with (olist (if b then None else Some (ch_cp ch))) by (destruct b; reflexivity).
          apply gathers_one. exact E2.
        - intros x Hx. rewrite (cover_self ch Er) in Hx. destruct (cps_eqb x (ch_cp ch)) eqn:E; [discriminate|]. apply cps_eqb_neq in E.
          rewrite V4, C4 by exact E. reflexivity. }
      unfold is_range in Er. destruct (ch_kind ch); [exact Hsingle|exact Hsingle|discriminate].
  Qed.

  Lemma rebuild_loop_ok : forall l t, growing db R t -> (forall ch, In ch l -> entry_ok R ch) ->
    ForallOrdPairs (fun a b => forall x, cover a x <> None -> cover b x = None) l ->
    (forall ch x, In ch l -> cover ch x <> None -> lk (lg_rep t) x = None) ->
    exists t' is, rebuild_loop script scripts (Some d) vr t l = (t', Ok is) /\ Forall2 (issue_for db vr (script d) scripts) l is.
  Proof.
    induction l as [|ch l IH]; intros t Ht Hok Hdis Hfree.
    - exists t, []. split; [reflexivity|constructor].
    - inversion Hdis as [|? ? Hd1 Hd2]; subst. rewrite Forall_forall in Hd1. cbn [rebuild_loop].
      destruct (rebuild_char_ok t ch Ht (Hok ch (or_introl eq_refl))) as [t1 [i [C1 [C2 [C3 C4]]]]].
      { intros x Hx. apply (Hfree ch x (or_introl eq_refl) Hx). }
      rewrite C1. destruct (IH t1 C3) as [t2 [is [L1 L2]]].
      + intros c Hc. apply Hok. right. exact Hc.
      + exact Hd2.
      + intros c x Hc Hx. destruct (cover ch x) as [e|] eqn:E.
        * exfalso. apply Hx. apply (Hd1 c Hc x). congruence.
        * rewrite C4 by exact E. apply (Hfree c x (or_intror Hc) Hx).
      + rewrite L1. cbn [bind]. exists t2, (i :: is). split; [reflexivity|constructor; assumption].
  Qed.
End Checks.

Theorem rebuild_report : forall script scripts g d db vr, proper g -> lg_db g = Some d -> answers db vr ->
  exists is, rebuild_lgr script scripts g db vr = Ok (true, is) /\
    Forall2 (issue_for db vr (script d) scripts) (rep_iter (lg_rep g)) is.
Proof.
  intros script scripts g d db vr Hp Hd Ha. pose proof (proper_tidy g Hp) as Hti. pose proof (tidy_reachable g Hti) as Hre.
  pose proof (lgr_reachable_wf g Hre) as Hwf. pose proof (tidy_rinv g Hti) as Hri. unfold rebuild_lgr. rewrite Hd.
  destruct (rebuild_loop_ok db vr (lg_refs g) Ha d script scripts (rep_iter (lg_rep g)) (set_refs (new_lgr db false) (lg_refs g))) as [t [is [E1 E2]]].
  - apply target_starts. exact Hre.
  - intros ch Hch. apply entries_ok; assumption.
  - apply cover_disjoint; assumption.
  - intros ch x _ _. destruct x; reflexivity.
  - rewrite E1. cbn [snd bind]. exists is. split; [reflexivity|exact E2].
Qed.

(** ** When nothing is reported *)
Lemma gathers_nil : forall A B (R : A -> option B -> Prop) l, gathers R l [] <-> (forall a, In a l -> R a None).
Proof.
  intros A B R l. split.
  - intro H. remember [] as r. induction H; subst; [intros a []|discriminate|]. intros b [Hb|Hb]; [subst; assumption|auto].
  - induction l as [|a l IH]; intro H; [constructor|]. apply ga_none; [apply H; left; reflexivity|]. apply IH. intros b Hb. apply H. right. exact Hb.
Qed.
Lemma objection_none : forall db vr c, objection db vr c None <->
  (forall x, In x c -> ~ bad db x /\ forall v, vr = Some v -> present v [x]).
Proof.
  intros db vr c. split.
  - intros H x Hx. inversion H as [| |H1 H2]; subst. split; [apply H1; exact Hx|]. intros v Hv. apply H2; assumption.
  - intro H. apply ob_none; [intros y Hy; apply H; exact Hy|]. intros v y Hv Hy. apply H; assumption.
Qed.
Lemma script_none : forall s ss c, script_objection s ss c None <-> (forall x, In x c -> of_script s ss x).
Proof. intros s ss c. split; [intros H x Hx; inversion H; auto|intro H; apply so_in; exact H]. Qed.
Lemma var_none : forall db c v, var_objection db c v None <-> (forall y, In y (c ++ v_cp v) -> ~ bad db y).
Proof. intros db c v. split; [intros H; inversion H; auto|intro H; apply vo_none; exact H]. Qed.

Lemma parts_cover : forall ch p, wf_char ch -> In p (parts ch) <-> exists e, cover ch p = Some e.
Proof.
  intros ch p Hw. unfold parts, cover. destruct (ch_kind ch) as [| |f l] eqn:Ek.
  - split; [intros [H|[]]; subst; rewrite cps_eqb_refl; eauto|]. intros [e H]. destruct (cps_eqb p (ch_cp ch)) eqn:E; [|discriminate].
    apply cps_eqb_eq in E. left. congruence.
  - split; [intros [H|[]]; subst; rewrite cps_eqb_refl; eauto|]. intros [e H]. destruct (cps_eqb p (ch_cp ch)) eqn:E; [|discriminate].
    apply cps_eqb_eq in E. left. congruence.
  - rewrite in_map_iff. split.
    + intros [x [E H]]. subst p. apply nrange_In in H. destruct H as [H1 H2]. apply N.leb_le in H1. apply N.leb_le in H2. rewrite H1, H2. eexists. reflexivity.
    + intros [e H]. destruct p as [|y [|z p]]; try discriminate. destruct (N.leb f y && N.leb y l)%bool eqn:E; [|discriminate].
      apply andb_true_iff in E. destruct E as [E1 E2]. apply N.leb_le in E1. apply N.leb_le in E2. exists y. split; [reflexivity|]. apply nrange_In. lia.
Qed.
Lemma cover_variants : forall ch p e, wf_char ch -> cover ch p = Some e -> get_variants e = get_variants ch /\ ch_cp e = p.
Proof.
  intros ch p e [Hv Hw] H. unfold cover in H. destruct (ch_kind ch) as [| |f l] eqn:Ek.
  - destruct (cps_eqb p (ch_cp ch)) eqn:E; [|discriminate]. apply cps_eqb_eq in E. injection H as H. subst. auto.
  - destruct (cps_eqb p (ch_cp ch)) eqn:E; [|discriminate]. apply cps_eqb_eq in E. injection H as H. subst. auto.
  - destruct p as [|y [|z p]]; try discriminate. destruct (N.leb f y && N.leb y l)%bool; [|discriminate]. injection H as H. subst.
    destruct Hw as [_ [_ Hn]]. split; [|reflexivity]. unfold get_variants. rewrite Hn. reflexivity.
Qed.

Theorem rebuild_silent : forall script scripts g d db vr is, proper g -> lg_db g = Some d -> answers db vr ->
  rebuild_lgr script scripts g db vr = Ok (true, is) ->
  ((forall i, In i is -> nothing i) <->
   (forall c ch x, lookup (lg_rep g) c = Some ch -> In x c ->
      ~ bad db x /\ (forall v, vr = Some v -> present v [x]) /\ of_script (script d) scripts x) /\
   (forall c ch v x, lookup (lg_rep g) c = Some ch -> In v (get_variants ch) -> In x (v_cp v) -> ~ bad db x)).
Proof.
  intros script scripts g d db vr is Hp Hd Ha Hrun. destruct (rebuild_report script scripts g d db vr Hp Hd Ha) as [is' [E1 E2]].
  rewrite Hrun in E1. injection E1 as E1. subst is'. clear Hrun.
  pose proof (proper_tidy g Hp) as Hti. pose proof (tidy_reachable g Hti) as Hre.
  pose proof (lgr_reachable_wf g Hre) as Hwf. pose proof (tidy_rinv g Hti) as Hri.
  assert (Hwfc : forall ch, In ch (rep_iter (lg_rep g)) -> wf_char ch) by (intros ch Hch; apply (entries_ok g ch Hp Hch)).
  assert (Hone : forall ch i, wf_char ch -> issue_for db vr (script d) scripts ch i -> (nothing i <->
    (forall p, In p (parts ch) -> forall x, In x p -> ~ bad db x /\ (forall v, vr = Some v -> present v [x]) /\ of_script (script d) scripts x) /\
    (forall v, In v (get_variants ch) -> forall x, In x (v_cp v) -> ~ bad db x))).
  { intros ch i Hw [_ [H1 [H2 H3]]]. split.
    - intros [N1 [N2 N3]]. rewrite N1 in H1. rewrite N2 in H2. rewrite N3 in H3. rewrite gathers_nil in H1, H2, H3. split.
      + intros p Hpp x Hx. specialize (H1 p Hpp). specialize (H2 p Hpp). rewrite objection_none in H1. rewrite script_none in H2.
        split; [apply H1; exact Hx|]. split; [apply H1; exact Hx|apply H2; exact Hx].
      + intros v Hv x Hx. specialize (H3 v Hv). rewrite var_none in H3. apply H3. apply in_app_iff. right. exact Hx.
    - intros [G1 G2].
      assert (K1 : forall r, gathers (objection db vr) (parts ch) r -> r = []).
      { intros r Hr. revert G1. clear -Hr. induction Hr as [|p b l r Ho Hg IH|p l r Ho Hg IH]; intro G; [reflexivity| |].
        - exfalso. assert (Hp : forall x, In x p -> ~ bad db x /\ (forall v, vr = Some v -> present v [x]))
            by (intros x Hx; destruct (G p (or_introl eq_refl) x Hx) as [A [B _]]; auto).
          inversion Ho as [x Hx|v x A B C D|]; subst.
          + apply first_such_In in Hx. apply (Hp x); apply Hx.
          + apply D. apply (Hp x C). reflexivity.
        - apply IH. intros q Hq. apply G. right. exact Hq. }
      assert (K2 : forall r, gathers (script_objection (script d) scripts) (parts ch) r -> r = []).
      { intros r Hr. revert G1. clear -Hr. induction Hr as [|p b l r Ho Hg IH|p l r Ho Hg IH]; intro G; [reflexivity| |].
        - exfalso. inversion Ho as [x Hx Hn|]; subst. apply Hn. apply (G _ (or_introl eq_refl) x Hx).
        - apply IH. intros q Hq. apply G. right. exact Hq. }
      assert (K3 : forall r, gathers (var_objection db (ch_cp ch)) (get_variants ch) r -> r = []).
      { assert (Hc : get_variants ch <> [] -> In (ch_cp ch) (parts ch)).
        { intro Hn. unfold parts. destruct (ch_kind ch) as [| |f l] eqn:Ek; [left; reflexivity|left; reflexivity|].
          exfalso. apply Hn. destruct Hw as [_ Hw]. rewrite Ek in Hw. destruct Hw as [_ [_ Hw]]. unfold get_variants. rewrite Hw. reflexivity. }
        intros r Hr. assert (Hb : forall v, In v (get_variants ch) -> forall y, In y (ch_cp ch ++ v_cp v) -> ~ bad db y).
        { intros v Hv y Hy. apply in_app_iff in Hy. destruct Hy as [Hy|Hy]; [|apply (G2 v Hv y Hy)].
          apply (G1 (ch_cp ch)); [|exact Hy]. apply Hc. intro E. rewrite E in Hv. destruct Hv. }
        revert Hb. clear -Hr. induction Hr as [|v b l r Ho Hg IH|v l r Ho Hg IH]; intro G; [reflexivity| |].
        - exfalso. inversion Ho as [x Hx|]; subst. apply first_such_In in Hx. apply (G v (or_introl eq_refl) x); apply Hx.
        - apply IH. intros q Hq. apply G. right. exact Hq. }
      split; [apply K1; exact H1|]. split; [apply K2; exact H2|apply K3; exact H3]. }
  assert (Hside1 : forall i, In i is -> exists ch, In ch (rep_iter (lg_rep g)) /\ issue_for db vr (script d) scripts ch i).
  { clear -E2. induction E2; intros i []; [subst; eexists; split; [left; reflexivity|eassumption]|].
    destruct (IHE2 i H0) as [ch [A B]]. exists ch. split; [right; exact A|exact B]. }
  assert (Hside2 : forall ch, In ch (rep_iter (lg_rep g)) -> exists i, In i is /\ issue_for db vr (script d) scripts ch i).
  { clear -E2. induction E2; intros ch []; [subst; eexists; split; [left; reflexivity|eassumption]|].
    destruct (IHE2 ch H0) as [i [A B]]. exists i. split; [right; exact A|exact B]. }
  split.
  - intro Hq.
    assert (Hall : forall ch, In ch (rep_iter (lg_rep g)) ->
      (forall p, In p (parts ch) -> forall x, In x p -> ~ bad db x /\ (forall v, vr = Some v -> present v [x]) /\ of_script (script d) scripts x) /\
      (forall v, In v (get_variants ch) -> forall x, In x (v_cp v) -> ~ bad db x)).
    { intros ch Hch. destruct (Hside2 ch Hch) as [i [I1 I2]]. apply (Hone ch i (Hwfc ch Hch) I2). apply Hq. exact I1. }
    split.
    + intros c e x He Hx. rewrite lookup_lk in He. apply (cover_lk _ Hwf Hri) in He. destruct He as [ch [Hch Hcov]].
      apply (proj1 (Hall ch Hch) c); [|exact Hx]. apply parts_cover; [apply Hwfc; exact Hch|eauto].
    + intros c e v x He Hv Hx. rewrite lookup_lk in He. apply (cover_lk _ Hwf Hri) in He. destruct He as [ch [Hch Hcov]].
      destruct (cover_variants ch c e (Hwfc ch Hch) Hcov) as [E _]. rewrite E in Hv. apply (proj2 (Hall ch Hch) v Hv x Hx).
  - intros [G1 G2] i Hi. destruct (Hside1 i Hi) as [ch [Hch Hiss]]. apply (Hone ch i (Hwfc ch Hch) Hiss). split.
    + intros p Hpp x Hx. apply parts_cover in Hpp; [|apply Hwfc; exact Hch]. destruct Hpp as [e He].
      apply (G1 p e x); [|exact Hx]. rewrite lookup_lk. apply (cover_lk _ Hwf Hri). eauto.
    + intros v Hv x Hx.
      assert (Hself : exists e, cover ch (ch_cp ch) = Some e).
      { apply parts_cover; [apply Hwfc; exact Hch|]. unfold parts. destruct (ch_kind ch) as [| |f l] eqn:Ek; [left; reflexivity|left; reflexivity|].
        exfalso. destruct (Hwfc ch Hch) as [_ Hw]. rewrite Ek in Hw. destruct Hw as [_ [_ Hw]]. unfold get_variants in Hv. rewrite Hw in Hv. destruct Hv. }
      destruct Hself as [e He]. destruct (cover_variants ch (ch_cp ch) e (Hwfc ch Hch) He) as [E _].
      apply (G2 (ch_cp ch) e v x); [rewrite lookup_lk; apply (cover_lk _ Hwf Hri); eauto|rewrite E; exact Hv|exact Hx].
Qed.
