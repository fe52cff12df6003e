(** Running the requests of a table on an LGR. *)
From Verif Require Import Base BaseFacts CharModel RepSpec RepProofs RefModel RefProofs LgrModel LgrSpec LgrProofs LgrReach
  VariantProofs PopulateProofs ValidateModel UtilsModel UtilsProofs AnnotateModel AnnotateSpec TableModel TableSpec.

Lemma first_with_snoc : forall A (P : A -> Prop) l e pre x,
  first_with P (l ++ [e]) pre x <->
  first_with P l pre x \/ (pre = l /\ x = e /\ P e /\ forall y, In y l -> ~ P y).
Proof.
  intros A P l e pre x. unfold first_with. split.
  - intros [post [H1 [H2 H3]]]. destruct post as [|b post _] using rev_ind.
    + apply app_inj_tail in H1. destruct H1 as [-> ->]. right. auto.
    + left. exists post. rewrite app_comm_cons, app_assoc in H1. apply app_inj_tail in H1. destruct H1 as [-> _]. auto.
  - intros [[post [-> [H2 H3]]]|[-> [-> [H2 H3]]]].
    + exists (post ++ [e]). rewrite <- app_assoc. auto.
    + exists []. auto.
Qed.
Lemma first_with_In : forall A (P : A -> Prop) l pre x, first_with P l pre x -> In x l /\ P x.
Proof. intros A P l pre x [post [-> [H _]]]. split; auto. apply in_or_app. right. left. auto. Qed.
Lemma first_with_fun : forall A (P : A -> Prop) l pre x pre' x', first_with P l pre x -> first_with P l pre' x' -> pre = pre' /\ x = x'.
Proof.
  intros A P l pre. revert l. induction pre as [|a pre IH]; intros l x pre' x' [post [-> [H1 H2]]] [post' [E [H3 H4]]].
  - destruct pre' as [|b pre']; cbn in E; injection E as -> E; auto. exfalso. apply (H4 b); [left; auto|exact H1].
  - destruct pre' as [|b pre']; cbn in E; injection E as -> E.
    + exfalso. apply (H2 x'); [left; auto|exact H3].
    + destruct (IH (pre ++ x :: post) x pre' x') as [-> ->]; auto.
      * exists post. split; auto. split; auto. intros y Hy. apply H2. right. exact Hy.
      * exists post'. split; auto. split; auto. intros y Hy. apply H4. right. exact Hy.
Qed.

(** Running. *)
Definition do_event (force : bool) (g : lgr) (e : event) : lgr :=
  match e with
  | ECp c refs => fst (lgr_add_cp g c None refs [] None None None false force)
  | EVar c v ty refs => fst (lgr_add_variant g c v ty None None None refs None false force)
  | ERef id value cm => fst (lgr_add_reference g value cm (Some id))
  end.
(** Requests that the operations never refuse for another reason than an
    earlier one. *)
Definition fine (force : bool) (evs : list event) (e : event) : Prop :=
  match e with
  | ECp c refs => c <> [] /\ (sound evs refs \/ force = true)
  | EVar c v ty refs => v <> [] /\ (sound evs refs \/ force = true) /\ exists x, In x evs /\ about_cp c x
  | ERef id _ _ => ref_id_ok id = true
  end.

Definition good (evs : list event) (g : lgr) : Prop := 
  lgr_reachable g /\ lg_db g = None /\ holds evs g /\
  forall c v e, In e evs -> about_var c v e -> exists x, In x evs /\ about_cp c x.

Lemma kept_is : forall evs g refs, holds evs g -> kept_refs g refs = kept evs refs.
Proof.
  intros evs g refs H. unfold kept_refs, kept. apply filter_ext. intro r.
  destruct (dmem String.eqb r (rm_refs (lg_refs g))) eqn:E1, (memb String.eqb r (declared evs)) eqn:E2; auto; exfalso.
  - unfold dmem in E1. destruct (dget String.eqb r (rm_refs (lg_refs g))) as [x|] eqn:E; [|discriminate].
    apply (h_ref _ _ H) in E. destruct E as [pre E]. apply first_with_In in E. destruct E as [E _].
    assert (memb String.eqb r (declared evs) = true); [|congruence]. apply (memb_In _ _ string_eqb_iff).
    unfold declared. apply in_flat_map. eexists. split; [exact E|]. left. reflexivity.
  - apply (memb_In _ _ string_eqb_iff) in E2. unfold declared in E2. apply in_flat_map in E2. destruct E2 as [e [E2 E3]].
    destruct e as [c l|c v ty l|id val cm]; cbn in E3; [contradiction|contradiction|]. destruct E3 as [->|[]].
    assert (Hf : exists pre val cm, first_with (about_ref r) evs pre (ERef r val cm)).
    { clear -E2. induction evs as [|a evs IH]; [contradiction|].
      assert (Hd : about_ref r a \/ ~ about_ref r a).
      { destruct a as [c l|c v ty l|id v m]; try (right; intros [? [? ?]]; discriminate).
        destruct (string_dec id r) as [->|Hn]; [left; exists v, m; reflexivity|right; intros [? [? Hx]]; congruence]. }
      destruct Hd as [[v [m ->]]|Hd].
      - exists [], v, m, evs. split; auto. split; [exists v, m; auto|intros ? []].
      - destruct E2 as [->|E2]; [exfalso; apply Hd; eexists _, _; reflexivity|].
        destruct (IH E2) as [pre [v [m [post [-> [H1 H2]]]]]]. exists (a :: pre), v, m, post. split; auto. split; auto.
        intros y [<-|Hy]; auto. }
    destruct Hf as [pre [v [m Hf]]]. assert (Hg : dget String.eqb r (rm_refs (lg_refs g)) = Some (mkRef v m)).
    { apply (h_ref _ _ H). exists pre. exact Hf. }
    unfold dmem in E1. rewrite Hg in E1. discriminate.
Qed.

Lemma about_cp_dec : forall c evs, (exists e, In e evs /\ about_cp c e) \/ (forall e, In e evs -> ~ about_cp c e).
Proof.
  intros c evs. induction evs as [|a evs IH]; [right; intros e []|].
  assert (Hd : about_cp c a \/ ~ about_cp c a).
  { destruct a as [d l|d v ty l|id v m]; try (right; intros [? ?]; discriminate).
    destruct (cps_eq_dec d c) as [->|Hn]; [left; exists l; reflexivity|right; intros [? Hx]; congruence]. }
  destruct Hd as [Hd|Hd]; [left; exists a; split; [left; auto|auto]|].
  destruct IH as [[e [H1 H2]]|IH]; [left; exists e; split; [right; auto|auto]|].
  right. intros e [<-|He]; auto.
Qed.

Lemma sound_nil : forall evs, sound evs [].
Proof. intro evs. split; [constructor|intros x []]. Qed.
Lemma declared_dmem : forall evs g r, holds evs g -> dmem String.eqb r (rm_refs (lg_refs g)) = true <-> In r (declared evs).
Proof.
  intros evs g r H. pose proof (kept_is evs g [r] H) as K. unfold kept_refs, kept in K. cbn [filter] in K.
  rewrite <- (memb_In _ _ string_eqb_iff).
  destruct (dmem String.eqb r (rm_refs (lg_refs g))), (memb String.eqb r (declared evs)); (discriminate || tauto).
Qed.
Lemma collect_fine : forall evs g force refs, holds evs g -> sound evs refs \/ force = true ->
  collect_refs (lg_refs g) force refs = Ok (kept_refs g refs) /\ (has_dup (kept_refs g refs) && negb force)%bool = false.
Proof.
  intros evs g force refs Hh H. destruct (collect_refs_cases g force refs) as [[e [_ [H2 [r [H3 _]]]]]|[H1 [_ H2]]].
  - destruct H as [H| ->]; [|discriminate]. apply first_such_In in H3. destruct H3 as [H3 H4]. exfalso. apply H4.
    apply defined_dmem. apply (declared_dmem _ _ _ Hh). apply H. exact H3.
  - split; auto. destruct force; cbn [negb]; [apply andb_false_r|]. rewrite H2 by reflexivity.
    destruct H as [[H _]|H]; [|discriminate]. apply has_dup_false in H. rewrite H. reflexivity.
Qed.
Lemma convert_fine : forall g c, lg_db g = None -> c <> [] -> check_convert g c = Ok c.
Proof. intros g c Hd Hc. unfold check_convert, check_convert_with. rewrite Hd. destruct c; [contradiction|reflexivity]. Qed.

Lemma snoc_other : forall A (P : A -> Prop) l e pre x, ~ P e -> first_with P (l ++ [e]) pre x <-> first_with P l pre x.
Proof. intros A P l e pre x H. rewrite first_with_snoc. split; [|auto]. intros [K|[_ [_ [K _]]]]; [auto|contradiction]. Qed.
Lemma snoc_later : forall A (P : A -> Prop) l e pre x, (exists y, In y l /\ P y) -> first_with P (l ++ [e]) pre x <-> first_with P l pre x.
Proof. intros A P l e pre x [y [H1 H2]]. rewrite first_with_snoc. split; [|auto]. intros [K|[_ [_ [_ K]]]]; [auto|exfalso; eapply K; eauto]. Qed.
Lemma In_snoc : forall A (l : list A) e x, In x (l ++ [e]) <-> In x l \/ x = e.
Proof. intros A l e x. rewrite in_app_iff. cbn. intuition. Qed.

(** Nothing changes when the request repeats an earlier one. *)
Lemma repeat_cp : forall evs g c refs, holds evs g -> (exists e, In e evs /\ about_cp c e) -> holds (evs ++ [ECp c refs]) g.
Proof.
  intros evs g c refs H He. constructor.
  - intro d. rewrite (h_cp _ _ H d). split.
    + intros [e [K1 K2]]. exists e. rewrite In_snoc. auto.
    + intros [e [K1 K2]]. apply In_snoc in K1. destruct K1 as [K1| ->]; [eauto|]. destruct K2 as [l K2]. injection K2 as <- _. exact He.
  - intros d ch Hd. destruct (h_entry _ _ H d ch Hd) as [pre [l [K1 K2]]]. exists pre, l. split; [|exact K2].
    apply snoc_later; [|exact K1]. apply (h_cp _ _ H). congruence.
  - intros d ch u Hd. rewrite (h_var _ _ H d ch u Hd). split; intros [pre [ty [l [K1 K2]]]]; exists pre, ty, l; (split; [|exact K2]).
    + apply snoc_other; [|exact K1]. intros [? [? K]]. discriminate.
    + apply snoc_other in K1; [exact K1|]. intros [? [? K]]. discriminate.
  - intros id r. rewrite (h_ref _ _ H id r). split; intros [pre K]; exists pre.
    + apply snoc_other; [|exact K]. intros [? [? K']]. discriminate.
    + apply snoc_other in K; [exact K|]. intros [? [? K']]. discriminate.
Qed.
Lemma repeat_var : forall evs g c v ty refs, holds evs g -> (exists e, In e evs /\ about_var c v e) -> holds (evs ++ [EVar c v ty refs]) g.
Proof.
  intros evs g c v ty refs H He. constructor.
  - intro d. rewrite (h_cp _ _ H d). split.
    + intros [e [K1 K2]]. exists e. rewrite In_snoc. auto.
    + intros [e [K1 K2]]. apply In_snoc in K1. destruct K1 as [K1| ->]; [eauto|]. destruct K2 as [l K2]. discriminate.
  - intros d ch Hd. destruct (h_entry _ _ H d ch Hd) as [pre [l [K1 K2]]]. exists pre, l. split; [|exact K2].
    apply snoc_other; [|exact K1]. intros [? K]. discriminate.
  - intros d ch u Hd. rewrite (h_var _ _ H d ch u Hd). split; intros [pre [t [l [K1 K2]]]]; exists pre, t, l; (split; [|exact K2]).
    + apply snoc_later; [|exact K1]. apply first_with_In in K1. eauto.
    + apply first_with_snoc in K1. destruct K1 as [K1|[-> [E [_ K1]]]]; [exact K1|]. exfalso. destruct He as [e [He1 He2]].
      injection E as E1 E2 _ _. subst d v. eapply K1; eauto.
  - intros id r. rewrite (h_ref _ _ H id r). split; intros [pre K]; exists pre.
    + apply snoc_other; [|exact K]. intros [? [? K']]. discriminate.
    + apply snoc_other in K; [exact K|]. intros [? [? K']]. discriminate.
Qed.

Lemma add_cp_event : forall force evs g c refs, good evs g -> fine force evs (ECp c refs) ->
  good (evs ++ [ECp c refs]) (do_event force g (ECp c refs)) /\
  tolerated_value (lgr_add_cp g c None refs [] None None None false force) = (do_event force g (ECp c refs), Done) /\
  tolerated (lgr_add_cp g c None refs [] None None None false force) = (do_event force g (ECp c refs), Done).
Proof.
  intros force evs g c refs [Hre [Hdb [H Hw]]] [Hc Hr].
  pose proof (lgr_reachable_step g (LAddCp c None refs [] None None None false force) Hre) as Hre'. unfold lgr_step in Hre'.
  assert (Hw' : forall d v e, In e (evs ++ [ECp c refs]) -> about_var d v e -> exists x, In x (evs ++ [ECp c refs]) /\ about_cp d x).
  { intros d v e He Hv. apply In_snoc in He. destruct He as [He| ->]; [|destruct Hv as [? [? K]]; discriminate].
    destruct (Hw d v e He Hv) as [x [K1 K2]]. exists x. rewrite In_snoc. auto. }
  destruct (collect_fine evs g force refs H Hr) as [Hcol Hdup].
  assert (Hadd : lgr_add_cp g c None refs [] None None None false force =
    match rep_add_char (lg_rep g) c None (kept_refs g refs) [] None None with
    | (r, Raise e) => (set_rep g r, Raise e)
    | (r, Ok _) => (add_cp_to_tag_classes (set_rep g r) c [], Ok tt)
    end).
  { unfold lgr_add_cp. rewrite (convert_fine g c Hdb Hc). cbn [is_some check_validating]. rewrite !andb_false_r, Hcol, Hdup.
    change (Nat.ltb 0 (@length string [])) with false. change (has_dup []) with false. cbn [andb]. reflexivity. }
  cbn [do_event].
  destruct (about_cp_dec c evs) as [Hold|Hnew].
  - (* already there *)
    assert (Hp : lk (lg_rep g) c <> None) by (rewrite <- lookup_lk; apply (h_cp _ _ H); exact Hold).
    destruct (lk (lg_rep g) c) as [ch|] eqn:El; [|contradiction].
    assert (Hrep : rep_add_char (lg_rep g) c None (kept_refs g refs) [] None None = (lg_rep g, Raise (CharAlreadyExists c))).
    { rewrite rep_add_char_lk by exact Hc. rewrite El. reflexivity. }
    rewrite Hadd, Hrep in *. cbn [fst tolerated_value tolerated is_lgr_exception] in *.
    rewrite set_rep_id in *. split; [|auto]. split; [exact Hre|]. split; [exact Hdb|]. split; [|exact Hw'].
    apply repeat_cp; auto.
  - assert (Hp : lk (lg_rep g) c = None).
    { destruct (lk (lg_rep g) c) as [ch|] eqn:El; auto. exfalso.
      destruct (proj1 (h_cp _ _ H c)) as [e [K1 K2]]; [rewrite lookup_lk; congruence|]. eapply Hnew; eauto. }
    set (nch := mkChar c (kind_of c) None (kept_refs g refs) [] None None []).
    assert (Hrep : rep_add_char (lg_rep g) c None (kept_refs g refs) [] None None = (ins (lg_rep g) nch, Ok nch)).
    { rewrite rep_add_char_lk by exact Hc. rewrite Hp. reflexivity. }
    rewrite Hadd, Hrep in *. cbn [fst tolerated_value tolerated add_cp_to_tag_classes] in *.
    split; [|auto]. split; [exact Hre'|]. split; [exact Hdb|]. split; [|exact Hw'].
    assert (Hlk : forall x, lookup (lg_rep (set_rep g (ins (lg_rep g) nch))) x = if cps_eqb x c then Some nch else lookup (lg_rep g) x).
    { intro x. rewrite ?lookup_lk. cbn [set_rep lg_rep]. rewrite lk_ins; [reflexivity|exact Hc|exact Hp]. }
    constructor.
    + intro d. rewrite Hlk. destruct (cps_eqb d c) eqn:Ed.
      * apply cps_eqb_eq in Ed. subst d. split; [|discriminate]. intros _. exists (ECp c refs). rewrite In_snoc. split; auto. exists refs. reflexivity.
      * rewrite (h_cp _ _ H d). split.
        -- intros [e [K1 K2]]. exists e. rewrite In_snoc. auto.
        -- intros [e [K1 K2]]. apply In_snoc in K1. destruct K1 as [K1| ->]; [eauto|]. destruct K2 as [l K2]. injection K2 as K2 _.
           subst d. rewrite cps_eqb_refl in Ed. discriminate.
    + intros d ch Hd. rewrite Hlk in Hd. destruct (cps_eqb d c) eqn:Ed.
      * apply cps_eqb_eq in Ed. subst d. injection Hd as <-. exists evs, refs. split.
        -- apply first_with_snoc. right. split; auto. split; auto. split; [exists refs; reflexivity|exact Hnew].
        -- cbn [nch ch_refs ch_comment ch_tags ch_when ch_not_when]. rewrite (kept_is _ _ _ H). split; [reflexivity|].
           split; [unfold is_range, kind_of; cbn [ch_kind]; destruct c as [|? [|? ?]]; reflexivity|]. auto.
      * destruct (h_entry _ _ H d ch Hd) as [pre [l [K1 K2]]]. exists pre, l. split; [|exact K2].
        apply first_with_snoc. left. exact K1.
    + intros d ch u Hd. rewrite Hlk in Hd. destruct (cps_eqb d c) eqn:Ed.
      * apply cps_eqb_eq in Ed. subst d. injection Hd as <-. cbn. split; [contradiction|].
        intros [pre [ty [l [K1 _]]]]. apply snoc_other in K1; [|intros [? [? K]]; discriminate].
        apply first_with_In in K1. destruct K1 as [K1 K2]. destruct (Hw _ _ _ K1 K2) as [x [K3 K4]]. eapply Hnew; eauto.
      * rewrite (h_var _ _ H d ch u Hd). split; intros [pre [ty [l [K1 K2]]]]; exists pre, ty, l; (split; [|exact K2]).
        -- apply snoc_other; [|exact K1]. intros [? [? K]]. discriminate.
        -- apply snoc_other in K1; [exact K1|]. intros [? [? K]]. discriminate.
    + intros id r. change (lg_refs (set_rep g (ins (lg_rep g) nch))) with (lg_refs g). rewrite (h_ref _ _ H id r).
      split; intros [pre K]; exists pre.
      * apply snoc_other; [|exact K]. intros [? [? K']]. discriminate.
      * apply snoc_other in K; [exact K|]. intros [? [? K']]. discriminate.
Qed.

Lemma about_var_dec : forall c v evs, (exists e, In e evs /\ about_var c v e) \/ (forall e, In e evs -> ~ about_var c v e).
Proof.
  intros c v evs. induction evs as [|a evs IH]; [right; intros e []|].
  assert (Hd : about_var c v a \/ ~ about_var c v a).
  { destruct a as [d l|d w ty l|id w m]; try (right; intros [? [? ?]]; discriminate).
    destruct (cps_eq_dec d c) as [->|Hn]; [|right; intros [? [? Hx]]; congruence].
    destruct (cps_eq_dec w v) as [->|Hn]; [left; exists ty, l; reflexivity|right; intros [? [? Hx]]; congruence]. }
  destruct Hd as [Hd|Hd]; [left; exists a; split; [left; auto|auto]|].
  destruct IH as [[e [H1 H2]]|IH]; [left; exists e; split; [right; auto|auto]|].
  right. intros e [<-|He]; auto.
Qed.
Lemma first_var_exists : forall c v evs, (exists e, In e evs /\ about_var c v e) ->
  exists pre ty refs, first_with (about_var c v) evs pre (EVar c v ty refs).
Proof.
  intros c v evs. induction evs as [|a evs IH] using rev_ind; intros [e [H1 H2]]; [contradiction|].
  destruct (about_var_dec c v evs) as [Hd|Hd].
  - destruct (IH Hd) as [pre [ty [refs K]]]. exists pre, ty, refs. apply first_with_snoc. left. exact K.
  - apply In_snoc in H1. destruct H1 as [H1| ->]; [exfalso; eapply Hd; eauto|]. destruct H2 as [ty [refs ->]].
    exists evs, ty, refs. apply first_with_snoc. right. split; auto. split; auto. split; [exists ty, refs; auto|exact Hd].
Qed.

Lemma add_var_event : forall force evs g c v ty refs, good evs g -> fine force evs (EVar c v ty refs) ->
  good (evs ++ [EVar c v ty refs]) (do_event force g (EVar c v ty refs)) /\
  tolerated_value (lgr_add_variant g c v ty None None None refs None false force) = (do_event force g (EVar c v ty refs), Done) /\
  tolerated (lgr_add_variant g c v ty None None None refs None false force) = (do_event force g (EVar c v ty refs), Done).
Proof.
  intros force evs g c v ty refs [Hre [Hdb [H Hw]]] [Hv [Hr Hcp]].
  pose proof (lgr_reachable_step g (LAddVariant c v ty None None None refs None false force) Hre) as Hre'. unfold lgr_step in Hre'.
  assert (Hw' : forall d w e, In e (evs ++ [EVar c v ty refs]) -> about_var d w e ->
                exists x, In x (evs ++ [EVar c v ty refs]) /\ about_cp d x).
  { intros d w e He Hx. apply In_snoc in He. destruct He as [He| ->].
    - destruct (Hw d w e He Hx) as [x [K1 K2]]. exists x. rewrite In_snoc. auto.
    - destruct Hx as [? [? Hx]]. injection Hx as <- _ _ _. destruct Hcp as [y [K1 K2]]. exists y. rewrite In_snoc. auto. }
  destruct (collect_fine evs g force refs H Hr) as [Hcol Hdup].
  assert (Hp : lk (lg_rep g) c <> None) by (rewrite <- lookup_lk; apply (h_cp _ _ H); exact Hcp).
  destruct (lk (lg_rep g) c) as [ch|] eqn:El; [|contradiction]. clear Hp.
  assert (Hc : c <> []) by (intro; subst; discriminate).
  pose proof (lgr_reachable_wf g Hre) as Hwf.
  assert (Ell : lookup (lg_rep g) c = Some ch) by (rewrite lookup_lk; exact El).
  destruct (h_entry _ _ H c ch Ell) as [pre0 [refs0 [Hf0 [Hx1 [Hrng Hx2]]]]].
  set (nv := mkVariant v ty None None None (kept_refs g refs)).
  assert (Hadd : lgr_add_variant g c v ty None None None refs None false force =
    match char_add_variant ch nv with
    | Ok ch' => (add_type (set_rep g (rep_put (lg_rep g) c ch')) ty, Ok tt)
    | Raise e => (g, Raise e)
    end).
  { unfold lgr_add_variant. rewrite (convert_fine g c Hdb Hc), (convert_fine g v Hdb Hv). cbn [bind is_some check_validating].
    rewrite !andb_false_r, Hcol, Hdup. unfold rep_add_variant. rewrite get_char_lk by exact Hc. rewrite El. fold nv.
    destruct (char_add_variant ch nv); [reflexivity|]. rewrite set_rep_id. reflexivity. }
  assert (Hkey : In (vkey nv) (map vkey (get_variants ch)) <-> exists e, In e evs /\ about_var c v e).
  { split.
    - intro Hi. apply in_map_iff in Hi. destruct Hi as [u [K1 K2]]. apply (h_var _ _ H c ch u Ell) in K2.
      destruct K2 as [pre [t [l [K2 K3]]]]. apply first_with_In in K2. unfold vkey in K1. injection K1 as K1 _ _. cbn [nv v_cp] in K1.
      rewrite K1 in K2. eauto.
    - intro Hi. destruct (first_var_exists c v evs Hi) as [pre [t [l K]]]. apply in_map_iff.
      exists (mkVariant v t None None None (kept pre l)). split; [reflexivity|]. apply (h_var _ _ H c ch _ Ell). exists pre, t, l. auto. }
  assert (Hvn : v_cp nv <> []) by exact Hv.
  cbn [do_event].
  destruct (add_variant_cases ch nv (lk_wf _ _ _ Hwf El) Hrng Hvn) as [[Hk Ev]|[Hk [ch' [Ev Hi]]]]; rewrite Ev in Hadd; rewrite Hadd in *.
  - cbn [fst tolerated_value tolerated is_lgr_exception]. split; [|auto]. split; [exact Hre|]. split; [exact Hdb|]. split; [|exact Hw'].
    apply repeat_var; auto. apply Hkey. exact Hk.
  - cbn [fst tolerated_value tolerated] in *. split; [|auto]. split; [exact Hre'|]. split; [exact Hdb|]. split; [|exact Hw'].
    pose proof (add_variant_same _ _ _ Ev) as Hs. pose proof Hs as Hs'. destruct Hs' as [Hs1 [Hs2 [Hs3 [Hs4 [Hs5 [Hs6 Hs7]]]]]].
    assert (Hnew : forall e, In e evs -> ~ about_var c v e).
    { intros e He Ha. apply Hk. apply Hkey. eauto. }
    set (g' := add_type (set_rep g (rep_put (lg_rep g) c ch')) ty).
    assert (Hlk : forall x, lookup (lg_rep g') x = if cps_eqb x c then Some ch' else lookup (lg_rep g) x).
    { intro x. rewrite ?lookup_lk. subst g'. unfold add_type. cbn [set_rep lg_rep].
      apply lk_put; [|congruence]. rewrite Hs1. apply (lk_cp _ _ _ El). }
    constructor.
    + intro d. transitivity (lookup (lg_rep g) d <> None).
      { rewrite Hlk. destruct (cps_eqb d c) eqn:Ed; [|tauto]. apply cps_eqb_eq in Ed. subst d. rewrite Ell. split; discriminate. }
      rewrite (h_cp _ _ H d). split.
      * intros [e [K1 K2]]. exists e. rewrite In_snoc. auto.
      * intros [e [K1 K2]]. apply In_snoc in K1. destruct K1 as [K1| ->]; [eauto|]. destruct K2 as [l K2]. discriminate.
    + intros d x Hd. rewrite Hlk in Hd. destruct (cps_eqb d c) eqn:Ed.
      * apply cps_eqb_eq in Ed. subst d. injection Hd as <-. exists pre0, refs0. split.
        -- apply snoc_other; [intros [? K]; discriminate|exact Hf0].
        -- rewrite (same_entry_range _ _ Hs). rewrite Hs3, Hs4, Hs5, Hs6, Hs7. auto.
      * destruct (h_entry _ _ H d x Hd) as [pre [l [K1 K2]]]. exists pre, l. split; [|exact K2].
        apply snoc_other; [intros [? K]; discriminate|exact K1].
    + intros d x u Hd. rewrite Hlk in Hd. destruct (cps_eqb d c) eqn:Ed.
      * apply cps_eqb_eq in Ed. subst d. injection Hd as <-. rewrite Hi, (h_var _ _ H c ch u Ell). split.
        -- intros [->|[pre [t [l [K1 K2]]]]].
           ++ exists evs, ty, refs. cbn [nv v_cp]. split; [|unfold nv; rewrite (kept_is _ _ _ H); reflexivity].
              apply first_with_snoc. right. split; auto. split; auto. split; [exists ty, refs; auto|exact Hnew].
           ++ exists pre, t, l. split; [|exact K2]. apply first_with_snoc. left. exact K1.
        -- intros [pre [t [l [K1 K2]]]]. apply first_with_snoc in K1. destruct K1 as [K1|[-> [E _]]]; [right; eauto|].
           left. injection E as E1 -> ->. rewrite K2, E1. unfold nv. rewrite (kept_is _ _ _ H). reflexivity.
      * rewrite (h_var _ _ H d x u Hd). split; intros [pre [t [l [K1 K2]]]]; exists pre, t, l; (split; [|exact K2]).
        -- apply first_with_snoc. left. exact K1.
        -- apply snoc_other in K1; [exact K1|]. intros [? [? K]]. injection K as K _ _ _. subst d. rewrite cps_eqb_refl in Ed. discriminate.
    + intros id r. change (lg_refs g') with (lg_refs g). rewrite (h_ref _ _ H id r). split; intros [pre K]; exists pre.
      * apply snoc_other; [|exact K]. intros [? [? K']]. discriminate.
      * apply snoc_other in K; [exact K|]. intros [? [? K']]. discriminate.
Qed.

Lemma add_ref_event : forall force evs g id value cm, good evs g -> ref_id_ok id = true ->
  good (evs ++ [ERef id value cm]) (do_event force g (ERef id value cm)).
Proof.
  intros force evs g id value cm [Hre [Hdb [H Hw]]] Hid. cbn [do_event].
  pose proof (lgr_reachable_step g (LAddReference value cm (Some id)) Hre) as Hre'. unfold lgr_step in Hre'.
  set (g' := fst (lgr_add_reference g value cm (Some id))) in *.
  assert (Hg' : lg_db g' = lg_db g /\ lg_rep g' = lg_rep g).
  { subst g'. unfold lgr_add_reference. destruct (rm_add _ _ _ _). cbn. auto. }
  destruct Hg' as [Hg1 Hg2].
  split; [destruct (lgr_add_reference g value cm (Some id)) as [gg o]; exact Hre'|]. split; [congruence|]. split.
  - constructor.
    + intro d. rewrite Hg2, (h_cp _ _ H d). split.
      * intros [e [K1 K2]]. exists e. rewrite In_snoc. auto.
      * intros [e [K1 K2]]. apply In_snoc in K1. destruct K1 as [K1| ->]; [eauto|]. destruct K2 as [l K2]. discriminate.
    + intros d x Hd. rewrite Hg2 in Hd. destruct (h_entry _ _ H d x Hd) as [pre [l [K1 K2]]]. exists pre, l. split; [|exact K2].
      apply snoc_other; [intros [? K]; discriminate|exact K1].
    + intros d x u Hd. rewrite Hg2 in Hd. rewrite (h_var _ _ H d x u Hd). split; intros [pre [t [l [K1 K2]]]]; exists pre, t, l; (split; [|exact K2]).
      * apply first_with_snoc. left. exact K1.
      * apply snoc_other in K1; [exact K1|]. intros [? [? K]]. discriminate.
    + intros i r. subst g'. unfold lgr_add_reference, rm_add.
      destruct (dmem String.eqb id (rm_refs (lg_refs g))) eqn:Em.
      * cbn [fst set_refs lg_refs]. rewrite (h_ref _ _ H i r). split; intros [pre K]; exists pre.
        -- apply first_with_snoc. left. exact K.
        -- apply first_with_snoc in K. destruct K as [K|[-> [E [_ K]]]]; [exact K|]. exfalso. injection E as E _ _. subst i.
           unfold dmem in Em. destruct (dget String.eqb id (rm_refs (lg_refs g))) as [y|] eqn:Ey; [|discriminate].
           apply (h_ref _ _ H) in Ey. destruct Ey as [q Hq]. apply first_with_In in Hq. destruct Hq as [Hq1 Hq2]. eapply K; eauto.
      * rewrite Hid. cbn [negb fst set_refs lg_refs rm_refs]. rewrite (dget_dset _ string_eqb_iff).
        assert (Hnew : forall e, In e evs -> ~ about_ref id e).
        { intros e He [v [m ->]]. assert (Hk : kept_refs g [id] = kept evs [id]) by (apply kept_is; exact H).
          unfold kept_refs, kept in Hk. cbn [filter] in Hk. rewrite Em in Hk.
          replace (memb String.eqb id (declared evs)) with true in Hk; [discriminate|]. symmetry. apply (memb_In _ _ string_eqb_iff).
          unfold declared. apply in_flat_map. eexists. split; [exact He|left; reflexivity]. }
        destruct (String.eqb i id) eqn:Ei.
        -- apply string_eqb_iff in Ei. subst i. split.
           ++ intro E. injection E as <-. exists evs. apply first_with_snoc. right. split; auto. split; [reflexivity|].
              split; [exists value, cm; reflexivity|exact Hnew].
           ++ intros [pre K]. apply first_with_snoc in K. destruct K as [K|[_ [E _]]].
              ** apply first_with_In in K. destruct K as [K1 K2]. exfalso. eapply Hnew; eauto.
              ** injection E as E1 E2. destruct r as [rv rc]. cbn [ref_value ref_comment] in E1, E2. rewrite E1, E2. reflexivity.
        -- rewrite (h_ref _ _ H i r). split; intros [pre K]; exists pre.
           ++ apply first_with_snoc. left. exact K.
           ++ apply snoc_other in K; [exact K|]. intros [? [? K']]. injection K' as K' _ _. subst i. rewrite (proj2 (string_eqb_iff id id) eq_refl) in Ei. discriminate.
  - intros d v e He Hx. apply In_snoc in He. destruct He as [He| ->]; [|destruct Hx as [? [? K]]; discriminate].
    destruct (Hw d v e He Hx) as [x [K1 K2]]. exists x. rewrite In_snoc. auto.
Qed.

Lemma good_start : forall allow, good [] (new_lgr None allow).
Proof.
  intro allow. split; [exists None, allow, []; reflexivity|]. split; [reflexivity|]. split; [|intros c v e []].
  constructor.
  - intro c. split; [intro K; exfalso; apply K; rewrite lookup_lk; destruct c; reflexivity|intros [e [[] _]]].
  - intros c ch K. exfalso. rewrite lookup_lk in K. destruct c; discriminate.
  - intros c ch u K. exfalso. rewrite lookup_lk in K. destruct c; discriminate.
  - intros id r. split; [discriminate|]. intros [pre [post [E _]]]. destruct pre; discriminate.
Qed.

(** Requests that may be refused. *)
Lemma sound_dec : forall evs refs, sound evs refs \/ ~ sound evs refs.
Proof.
  intros evs refs. destruct (has_dup refs) eqn:Ed; [apply has_dup_iff in Ed; right; intros [K _]; contradiction|].
  apply has_dup_false in Ed.
  assert (Hi : incl refs (declared evs) \/ ~ incl refs (declared evs)).
  { clear Ed. induction refs as [|r refs IH]; [left; intros x []|].
    destruct (memb String.eqb r (declared evs)) eqn:Em.
    - apply (memb_In _ _ string_eqb_iff) in Em. destruct IH as [IH|IH]; [left|right].
      + intros x [<-|Hx]; auto.
      + intro K. apply IH. intros x Hx. apply K. right. exact Hx.
    - right. intro K. assert (In r (declared evs)) as Hr by (apply K; left; reflexivity).
      apply (memb_In _ _ string_eqb_iff) in Hr. congruence. }
  destruct Hi as [Hi|Hi]; [left; split; auto|right; intros [_ K]; contradiction].
Qed.
Lemma citing_dec : forall force evs refs, (sound evs refs \/ force = true) \/ ~ (sound evs refs \/ force = true).
Proof.
  intros force evs refs. destruct (sound_dec evs refs) as [H|H]; [auto|]. destruct force; [auto|].
  right. intros [K|K]; [contradiction|discriminate].
Qed.
Lemma heeds_dec : forall force evs e, heeds force evs e \/ ~ heeds force evs e.
Proof.
  intros force evs [c refs|c v ty refs|id v cm]; cbn [heeds].
  - apply citing_dec.
  - destruct (citing_dec force evs refs) as [H|H]; [|right; tauto].
    destruct (about_cp_dec c evs) as [K|K]; [tauto|]. right. intros [_ [x [K1 K2]]]. eapply K; eauto.
  - auto.
Qed.
Lemma collect_unfit : forall evs g force refs, holds evs g -> ~ (sound evs refs \/ force = true) ->
  (exists r, collect_refs (lg_refs g) force refs = Raise (ReferenceNotDefined r)) \/
  (exists l, collect_refs (lg_refs g) force refs = Ok l /\ (has_dup l && negb force)%bool = true).
Proof.
  intros evs g force refs Hh H. destruct force; [exfalso; apply H; auto|].
  destruct (collect_refs_cases g false refs) as [[e [H1 [_ [r [_ H3]]]]]|[H1 [H2 H3]]]; [left; subst e; eauto|].
  right. exists refs. rewrite H1, H3 by reflexivity. split; [reflexivity|]. cbn [negb]. rewrite andb_true_r.
  destruct (has_dup refs) eqn:Ed; [reflexivity|]. exfalso. apply H. left. split; [apply has_dup_false; exact Ed|].
  intros r Hr. apply (declared_dmem _ _ _ Hh). rewrite <- (H3 eq_refl) in Hr. unfold kept_refs in Hr. apply filter_In in Hr. apply Hr.
Qed.

Definition turn (force : bool) (evs : list event) (e : event) (l : list event) : Prop :=
  (l = evs ++ [e] /\ heeds force evs e) \/ (l = evs /\ ~ heeds force evs e).
Lemma turn_incl : forall force evs e l, turn force evs e l -> incl evs l.
Proof. intros force evs e l [[-> _]|[-> _]]; [apply incl_appl|]; apply incl_refl. Qed.

Lemma cp_turn : forall force evs g c refs, good evs g -> c <> [] -> exists l g', turn force evs (ECp c refs) l /\ good l g' /\
  tolerated_value (lgr_add_cp g c None refs [] None None None false force) = (g', Done) /\
  tolerated (lgr_add_cp g c None refs [] None None None false force) = (g', Done).
Proof.
  intros force evs g c refs H Hc. destruct (heeds_dec force evs (ECp c refs)) as [Hd|Hd].
  - destruct (add_cp_event force evs g c refs H (conj Hc Hd)) as [K1 [K2 K3]].
    eexists _, _. split; [left; split; [reflexivity|exact Hd]|]. split; [exact K1|auto].
  - exists evs, g. split; [right; auto|]. split; [exact H|]. destruct H as [_ [Hdb [H _]]].
    assert (E : exists e, lgr_add_cp g c None refs [] None None None false force = (g, Raise e) /\ is_lgr_exception e = true /\ e <> ValueError).
    { unfold lgr_add_cp. rewrite (convert_fine g c Hdb Hc). cbn [is_some check_validating]. rewrite !andb_false_r.
      destruct (collect_unfit _ _ _ _ H Hd) as [[r ->]|[l [-> ->]]]; eexists; (split; [reflexivity|split; [reflexivity|discriminate]]). }
    destruct E as [e [-> [E1 E2]]]. unfold tolerated_value, tolerated. rewrite E1. destruct e; try discriminate E1; auto.
Qed.
Lemma var_turn : forall force evs g c v ty refs, good evs g -> c <> [] -> v <> [] -> exists l g',
  turn force evs (EVar c v ty refs) l /\ good l g' /\
  tolerated_value (lgr_add_variant g c v ty None None None refs None false force) = (g', Done) /\
  tolerated (lgr_add_variant g c v ty None None None refs None false force) = (g', Done).
Proof.
  intros force evs g c v ty refs H Hc Hv. destruct (heeds_dec force evs (EVar c v ty refs)) as [Hd|Hd].
  - destruct (add_var_event force evs g c v ty refs H (conj Hv Hd)) as [K1 [K2 K3]].
    eexists _, _. split; [left; split; [reflexivity|exact Hd]|]. split; [exact K1|auto].
  - exists evs, g. split; [right; auto|]. split; [exact H|]. destruct H as [_ [Hdb [H _]]].
    assert (E : exists e, lgr_add_variant g c v ty None None None refs None false force = (g, Raise e) /\ is_lgr_exception e = true /\ e <> ValueError).
    { unfold lgr_add_variant. rewrite (convert_fine g c Hdb Hc), (convert_fine g v Hdb Hv). cbn [bind is_some check_validating]. rewrite !andb_false_r.
      destruct (citing_dec force evs refs) as [Hr|Hr].
      - destruct (collect_fine _ _ _ _ H Hr) as [-> ->]. unfold rep_add_variant. rewrite get_char_lk by exact Hc.
        destruct (lk (lg_rep g) c) as [ch|] eqn:El.
        + exfalso. apply Hd. split; [exact Hr|]. apply (h_cp _ _ H). rewrite lookup_lk. congruence.
        + rewrite set_rep_id. eexists. split; [reflexivity|]. split; [reflexivity|discriminate].
      - destruct (collect_unfit _ _ _ _ H Hr) as [[r ->]|[l [-> ->]]]; eexists; (split; [reflexivity|split; [reflexivity|discriminate]]). }
    destruct E as [e [-> [E1 E2]]]. unfold tolerated_value, tolerated. rewrite E1. destruct e; try discriminate E1; auto.
Qed.

(** Several requests. *)
Inductive turns (force : bool) : list event -> list event -> list event -> Prop :=
| t_none : forall evs, turns force evs [] evs
| t_more : forall evs e l es l', turn force evs e l -> turns force l es l' -> turns force evs (e :: es) l'.
Lemma turns_app : forall force evs es l es' l', turns force evs es l -> turns force l es' l' -> turns force evs (es ++ es') l'.
Proof. intros force evs es l es' l' H. induction H; intro K; cbn [app]; [exact K|econstructor; eauto]. Qed.
Lemma turns_one : forall force evs e l, turn force evs e l -> turns force evs [e] l.
Proof. intros. econstructor; [eassumption|constructor]. Qed.
Lemma turns_incl : forall force evs es l, turns force evs es l -> incl evs l.
Proof. intros force evs es l H. induction H; [apply incl_refl|]. eapply incl_tran; [eapply turn_incl; eauto|assumption]. Qed.
Lemma turns_heeded : forall force evs es l, turns force evs es l -> forall asked, heeded force asked evs -> heeded force (asked ++ es) l.
Proof.
  intros force evs es l H. induction H as [evs|evs e l es l' Ht _ IH]; intros asked Ha; [rewrite app_nil_r; exact Ha|].
  replace (asked ++ e :: es) with ((asked ++ [e]) ++ es) by (rewrite <- app_assoc; reflexivity). apply IH.
  destruct Ht as [[-> Hh]|[-> Hh]]; [apply he_taken|apply he_refused]; auto.
Qed.
