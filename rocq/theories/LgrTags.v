From Coq Require Import Sorting.Sorted Permutation.
From Verif Require Import Base BaseFacts CharModel RepSpec RepProofs RangeProofs VariantProofs UtilsModel UtilsSpec UtilsProofs RefModel RefProofs LgrModel LgrSpec LgrProofs LgrReach LgrRange LgrInv.

(** ** A property of every entry, through every operation *)
Definition allch (P : char -> Prop) (r : repertoire) : Prop := forall c ch, lk r c = Some ch -> P ch.

Section AllCh.
  Variable P : char -> Prop.

  Lemma allch_empty : allch P empty_rep.
  Proof. intros [|x c] ch H; discriminate. Qed.
  Lemma allch_upd : forall r r' c o, allch P r -> (forall d, lk r' d = if cps_eqb d c then o else lk r d) ->
    (forall ch, o = Some ch -> P ch) -> allch P r'.
  Proof.
    intros r r' c o Ha Hl Ho d ch H. rewrite Hl in H. destruct (cps_eqb d c); [auto|]. eapply Ha; eauto.
  Qed.
  Lemma allch_add_char : forall r c cm rf tg w nw, allch P r ->
    (c <> [] -> P (mkChar c (kind_of c) cm rf tg w nw [])) -> allch P (fst (rep_add_char r c cm rf tg w nw)).
  Proof.
    intros r c cm rf tg w nw Ha Hp. destruct c as [|x t]; [exact Ha|]. rewrite rep_add_char_lk by discriminate.
    destruct (lk r (x :: t)) eqn:E; [exact Ha|]. cbn [fst].
    eapply allch_upd; [exact Ha|intro d; apply lk_ins; [discriminate|exact E]|].
    intros ch H. injection H as H. subst. apply Hp. discriminate.
  Qed.
  Lemma allch_insert_ranges : forall rs r cm rf tg w nw, wf_rep r ->
    NoDup (expand_ranges_list rs) -> Forall (fun p => fst p <= snd p) rs -> allch P r ->
    (forall y k, P (mkChar [y] k cm rf tg w nw [])) -> allch P (fst (insert_ranges r cm rf tg w nw rs)).
  Proof.
    intros rs r cm rf tg w nw Hwf Hnd Hf Ha Hp. destruct (insert_ranges r cm rf tg w nw rs) as [r' x] eqn:E.
    apply insert_ranges_spec in E; auto. cbn [fst]. intros c ch H.
    destruct E as [[_ [_ [B _]]]|[pre [z [post [_ [_ [_ [_ B]]]]]]]]; rewrite B in H;
      (destruct c as [|y [|y2 c]]; try (eapply Ha; eassumption);
       destruct (memb N.eqb y _); [injection H as H; subst; apply Hp|eapply Ha; eassumption]).
  Qed.
  Lemma allch_readd : forall l r ch, allch P r ->
    (forall y, P (mkChar [y] KChar (ch_comment ch) (ch_refs ch) (ch_tags ch) (ch_when ch) (ch_not_when ch) [])) ->
    allch P (fst (readd_loop r ch l)).
  Proof.
    induction l as [|x l IH]; intros r ch Ha Hp; cbn [readd_loop]; [exact Ha|].
    pose proof (allch_add_char r [x] (ch_comment ch) (ch_refs ch) (ch_tags ch) (ch_when ch) (ch_not_when ch) Ha (fun _ => Hp x)) as H.
    destruct (rep_add_char r [x] _ _ _ _ _) as [r1 [y|e]]; auto.
  Qed.
  Lemma allch_sub : forall r r', allch P r -> (forall c ch, lk r' c = Some ch -> lk r c = Some ch) -> allch P r'.
  Proof. intros r r' Ha H c ch Hc. eapply Ha. apply H. exact Hc. Qed.
  Lemma allch_del_char : forall r c, wf_rep r -> allch P r -> allch P (fst (rep_del_char r c)).
  Proof.
    intros r c Hwf Ha. unfold rep_del_char. destruct c as [|x t]; [exact Ha|]. rewrite del_char_unfold.
    destruct (lk r (x :: t)); [|exact Ha]. eapply allch_sub; [exact Ha|]. intros d ch H. cbn [fst] in H.
    rewrite lk_del in H by exact Hwf. destruct (cps_eqb d (x :: t)); [discriminate|exact H].
  Qed.
  Lemma del_range_loop_sub : forall l r c ch, wf_rep r -> lk (fst (del_range_loop r l)) c = Some ch -> lk r c = Some ch.
  Proof.
    induction l as [|x l IH]; intros r c ch Hwf H; cbn [del_range_loop] in H; [exact H|].
    rewrite del_char_unfold in H. destruct (lk r [x]); [|exact H].
    apply IH in H; [|apply wf_del; exact Hwf]. rewrite lk_del in H by exact Hwf. destruct (cps_eqb c [x]); [discriminate|exact H].
  Qed.
  Lemma del_range_sub : forall r f l c ch, wf_rep r -> lk (fst (rep_del_range r f l)) c = Some ch -> lk r c = Some ch.
  Proof.
    intros r f l c ch Hwf. unfold rep_del_range. destruct (N.ltb f l); auto.
    destruct (memb pair_eqb (f, l) (rep_ranges r)); auto.
    pose proof (del_range_loop_sub (nrange f l) r c ch Hwf) as H. destruct (del_range_loop r (nrange f l)) as [r' [u|e]]; auto.
  Qed.
  Lemma allch_del_range : forall r f l, wf_rep r -> allch P r -> allch P (fst (rep_del_range r f l)).
  Proof. intros r f l Hwf Ha. eapply allch_sub; [exact Ha|]. intros c ch. apply del_range_sub. exact Hwf. Qed.

  Hypothesis P_copy : forall ch y k, P ch -> P (mkChar [y] k (ch_comment ch) (ch_refs ch) (ch_tags ch) (ch_when ch) (ch_not_when ch) []).
  Hypothesis P_delv : forall ch ch' v w nw b, wf_char ch -> P ch -> char_del_variant ch v w nw = Ok (ch', b) -> P ch'.

  Lemma allch_expand_range : forall g f l, wf_rep (lg_rep g) -> allch P (lg_rep g) -> allch P (lg_rep (fst (lgr_expand_range g f l))).
  Proof.
    intros g f l Hwf Ha. unfold lgr_expand_range. destruct (N.ltb l f); [exact Ha|].
    destruct (check_convert g [f]) as [c|e] eqn:Ec; [|exact Ha]. cbn [bind]. apply check_convert_id in Ec. destruct Ec as [Ec Hne]. subst c.
    rewrite get_char_lk by exact Hne. destruct (lk (lg_rep g) [f]) as [ch|] eqn:E; [|exact Ha].
    pose proof (allch_del_range (lg_rep g) f l Hwf Ha) as H1. destruct (rep_del_range (lg_rep g) f l) as [r [u|e]]; [|exact H1].
    cbn [fst] in H1. pose proof (allch_readd (nrange f l) r ch H1 (fun y => P_copy ch y KChar (Ha _ _ E))) as H2.
    destruct (readd_loop r ch (nrange f l)) as [r' x]. exact H2.
  Qed.
  Lemma allch_expand_loop : forall l g, wf_rep (lg_rep g) -> allch P (lg_rep g) -> allch P (lg_rep (fst (expand_loop g l))).
  Proof.
    induction l as [|[f la] l IH]; intros g Hwf Ha; cbn [expand_loop]; [exact Ha|].
    pose proof (allch_expand_range g f la Hwf Ha) as H. pose proof (rsteps_expand g f la) as Hs.
    destruct (lgr_expand_range g f la) as [g1 [u|e]]; auto. cbn [fst] in *. apply IH; auto. eapply rsteps_wf; eauto.
  Qed.
  Lemma allch_del_variant : forall r c v w nw, wf_rep r -> allch P r -> allch P (fst (rep_del_variant r c v w nw)).
  Proof.
    intros r c v w nw Hwf Ha. unfold rep_del_variant. destruct c as [|x t]; [exact Ha|]. rewrite get_char_lk by discriminate.
    destruct (lk r (x :: t)) as [ch|] eqn:E; [|exact Ha].
    destruct (char_del_variant ch v w nw) as [[ch' b]|e] eqn:Ev; [|exact Ha]. cbn [fst].
    pose proof (lk_wf _ _ _ Hwf E) as Hw. destruct (char_del_variant_wf _ _ _ _ _ _ Hw Ev) as [_ Hcp].
    eapply allch_upd; [exact Ha|intro d; apply lk_put; [rewrite Hcp; eapply lk_cp; exact E|congruence]|].
    intros ch0 H. injection H as H. subst. eapply P_delv; [exact Hw|eapply Ha; exact E|exact Ev].
  Qed.
  Lemma allch_add_variant : forall r c v, wf_rep r -> allch P r ->
    (forall ch ch', wf_char ch -> P ch -> char_add_variant ch v = Ok ch' -> P ch') ->
    allch P (fst (rep_add_variant r c v)).
  Proof.
    intros r c v Hwf Ha Hp. unfold rep_add_variant. destruct c as [|x t]; [exact Ha|]. rewrite get_char_lk by discriminate.
    destruct (lk r (x :: t)) as [ch|] eqn:E; [|exact Ha].
    destruct (char_add_variant ch v) as [ch'|e] eqn:Ev; [|exact Ha]. cbn [fst].
    pose proof (lk_wf _ _ _ Hwf E) as Hw. destruct (char_add_variant_wf _ _ _ Hw Ev) as [_ Hcp].
    eapply allch_upd; [exact Ha|intro d; apply lk_put; [rewrite Hcp; eapply lk_cp; exact E|congruence]|].
    intros ch0 H. injection H as H. subst. eapply Hp; [exact Hw|eapply Ha; exact E|exact Ev].
  Qed.

  Lemma ff_tail_dup : forall g c rf tg w nw vr ov fo, first_failing (add_cp_checks g c rf tg w nw vr ov fo) None ->
    fo = false -> NoDup rf /\ NoDup tg /\ ((1 < length c)%nat -> tg = []).
  Proof.
    intros g c rf tg w nw vr ov fo H Hf. unfold add_cp_checks in H. cbn [first_failing] in H.
    do 5 (destruct H as [[e [_ H]]|[_ H]]; [discriminate|]).
    destruct H as [[e [_ H]]|[H1 H]]; [discriminate|].
    destruct H as [[e [_ H]]|[H2 H]]; [discriminate|].
    destruct H as [[e [_ H]]|[H3 H]]; [discriminate|].
    split; [|split].
    - apply has_dup_false. destruct (has_dup rf) eqn:E; auto. exfalso. apply has_dup_iff in E. eapply H1. split; [exact Hf|]. split; [exact E|reflexivity].
    - apply has_dup_false. destruct (has_dup tg) eqn:E; auto. exfalso. apply has_dup_iff in E. eapply H3. split; [exact Hf|]. split; [exact E|reflexivity].
    - intro Hl. destruct tg; auto. exfalso. eapply H2. split; [exact Hf|]. split; [exact Hl|]. split; [discriminate|reflexivity].
  Qed.
  Lemma ffr_tail_dup : forall g f l rf tg w nw vr ov fo, first_failing (add_range_checks g f l rf tg w nw vr ov fo) None ->
    fo = false -> NoDup rf /\ NoDup tg.
  Proof.
    intros g f l rf tg w nw vr ov fo H Hf. unfold add_range_checks in H. cbn [first_failing] in H.
    do 5 (destruct H as [[e [_ H]]|[_ H]]; [discriminate|]).
    destruct H as [[e [_ H]]|[H1 H]]; [discriminate|].
    destruct H as [[e [_ H]]|[H3 H]]; [discriminate|].
    split.
    - apply has_dup_false. destruct (has_dup rf) eqn:E; auto. exfalso. apply has_dup_iff in E. eapply H1. split; [exact Hf|]. split; [exact E|reflexivity].
    - apply has_dup_false. destruct (has_dup tg) eqn:E; auto. exfalso. apply has_dup_iff in E. eapply H3. split; [exact Hf|]. split; [exact E|reflexivity].
  Qed.

  Lemma allch_lgr_add_cp : forall g c cm rf tg w nw vr ov fo, allch P (lg_rep g) ->
    ((fo = false -> NoDup rf /\ NoDup tg /\ ((1 < length c)%nat -> tg = [])) -> forall k, P (mkChar c k cm (kept_refs g rf) tg w nw [])) ->
    allch P (lg_rep (fst (lgr_add_cp g c cm rf tg w nw vr ov fo))).
  Proof.
    intros g c cm rf tg w nw vr ov fo Ha Hp. destruct (add_cp_spec g c cm rf tg w nw vr ov fo) as [r [H1 H2]].
    destruct (lgr_add_cp g c cm rf tg w nw vr ov fo) as [g' x]. destruct r as [e|]; [destruct H2; subst; exact Ha|].
    destruct H2 as [_ [H2 [H3 _]]]. cbn [fst]. intros d ch Hd. destruct (cps_eq_dec d c) as [E|E].
    - subst d. rewrite <- lookup_lk, H2 in Hd. injection Hd as Hd. subst. apply Hp. eapply ff_tail_dup. exact H1.
    - eapply Ha. rewrite <- lookup_lk, <- H3 by exact E. rewrite lookup_lk. exact Hd.
  Qed.

  Lemma allch_lgr_add_range : forall g f l cm rf tg w nw vr ov fo, wf_rep (lg_rep g) -> allch P (lg_rep g) ->
    ((fo = false -> NoDup rf /\ NoDup tg) -> forall y k, P (mkChar [y] k cm (kept_refs g rf) tg w nw [])) ->
    allch P (lg_rep (fst (lgr_add_range g f l cm rf tg w nw vr ov fo))).
  Proof.
    intros g f l cm rf tg w nw vr ov fo Hwf Ha Hp. destruct (add_range_unfold g f l cm rf tg w nw vr ov fo) as [r [H1 H2]].
    destruct r as [e|]; [rewrite H2; exact Ha|]. destruct H2 as [ks [rs [Hs [Hks [Hex [Hf Heq]]]]]]. rewrite Heq.
    pose proof (allch_insert_ranges rs (lg_rep g) cm (kept_refs g rf) tg w nw Hwf) as Hi.
    rewrite Hex in Hi. specialize (Hi (sorted_NoDup _ Hs) Hf Ha (Hp (ffr_tail_dup _ _ _ _ _ _ _ _ _ _ H1))).
    destruct (insert_ranges (lg_rep g) cm (kept_refs g rf) tg w nw rs) as [r' [u|e]]; cbn [fst] in *; [rewrite fold_tags_rep|]; exact Hi.
  Qed.

  Lemma add_cp_refs : forall g c cm rf tg w nw vr ov fo, lg_refs (fst (lgr_add_cp g c cm rf tg w nw vr ov fo)) = lg_refs g.
  Proof. intros. destruct (add_cp_unfold g c cm rf tg w nw vr ov fo) as [r [_ H]]. rewrite H. destruct r; reflexivity. Qed.
  Lemma add_range_refs : forall g f l cm rf tg w nw vr ov fo, lg_refs (fst (lgr_add_range g f l cm rf tg w nw vr ov fo)) = lg_refs g.
  Proof.
    intros. destruct (add_range_unfold g f l cm rf tg w nw vr ov fo) as [r [_ H]].
    destruct r; [rewrite H; auto|]. destruct H as [ks [rs [_ [_ [_ [_ H]]]]]]. rewrite H.
    destruct (insert_ranges _ _ _ _ _ _ rs) as [r' [u|e]]; cbn [fst]; auto.
    destruct (fold_tags_db tg ks (set_rep g r')) as [_ [_ [_ D]]]. exact D.
  Qed.

  Lemma allch_add_collapsed : forall l g cm rf tg, wf_rep (lg_rep g) -> allch P (lg_rep g) ->
    (NoDup rf -> NoDup tg -> forall y k, P (mkChar [y] k cm (kept_refs g rf) tg None None [])) ->
    allch P (lg_rep (fst (add_collapsed g cm rf tg l))).
  Proof.
    induction l as [|[f la] l IH]; intros g cm rf tg Hwf Ha Hp; cbn [add_collapsed]; [exact Ha|].
    destruct (N.eqb f la).
    - pose proof (allch_lgr_add_cp g [f] cm rf tg None None None false false Ha) as H.
      pose proof (rsteps_lgr_add_cp g [f] cm rf tg None None None false false) as Hs.
      pose proof (add_cp_refs g [f] cm rf tg None None None false false) as Hrf.
      destruct (lgr_add_cp g [f] cm rf tg None None None false false) as [g1 [u|e]]; cbn [fst] in *.
      + apply IH; [eapply rsteps_wf; eauto| |].
        * apply H. intros Hd k. destruct (Hd eq_refl) as [D1 [D2 _]]. apply Hp; auto.
        * intros D1 D2 y k. unfold kept_refs. rewrite Hrf. apply Hp; auto.
      + apply H. intros Hd k. destruct (Hd eq_refl) as [D1 [D2 _]]. apply Hp; auto.
    - pose proof (allch_lgr_add_range g f la cm rf tg None None None false false Hwf Ha) as H.
      pose proof (rsteps_lgr_add_range g f la cm rf tg None None None false false) as Hs.
      pose proof (add_range_refs g f la cm rf tg None None None false false) as Hrf.
      destruct (lgr_add_range g f la cm rf tg None None None false false) as [g1 [u|e]]; cbn [fst] in *.
      + apply IH; [eapply rsteps_wf; eauto| |].
        * apply H. intros Hd y k. destruct (Hd eq_refl) as [D1 D2]. apply Hp; auto.
        * intros D1 D2 y k. unfold kept_refs. rewrite Hrf. apply Hp; auto.
      + apply H. intros Hd y k. destruct (Hd eq_refl) as [D1 D2]. apply Hp; auto.
  Qed.
  
  Variable okfresh : cps -> list string -> list string -> Prop.
  Hypothesis P_fresh : forall c k cm rf tg w nw, okfresh c rf tg -> P (mkChar c k cm rf tg w nw []).
  Variable okv : variant -> Prop.
  Hypothesis P_addv : forall ch ch' v, wf_char ch -> P ch -> okv v -> char_add_variant ch v = Ok ch' -> P ch'.

  Definition op_ok (g : lgr) (o : lgr_op) : Prop :=
    match o with
    | LAddCp c _ rf tg _ _ _ _ fo =>
        (fo = false -> NoDup rf /\ NoDup tg /\ ((1 < length c)%nat -> tg = [])) -> okfresh c (kept_refs g rf) tg
    | LAddRange _ _ _ rf tg _ _ _ _ fo => (fo = false -> NoDup rf /\ NoDup tg) -> forall y, okfresh [y] (kept_refs g rf) tg
    | LAddCodepoints _ _ rf tg => NoDup rf -> NoDup tg -> forall y, okfresh [y] (kept_refs g rf) tg
    | LAddVariant _ v ty w nw cm rf _ _ fo => (fo = false -> NoDup rf) -> okv (mkVariant v ty w nw cm (kept_refs g rf))
    | LDelReference _ | LDelTag _ => False
    | _ => True
    end.

  Lemma allch_step : forall g o, wf_rep (lg_rep g) -> allch P (lg_rep g) -> op_ok g o -> allch P (lg_rep (fst (lgr_step g o))).
  Proof.
    intros g o Hwf Ha Ho. destruct o as [c cm rf tg w nw vr ov fo|c|f l cm rf tg w nw vr ov fo|f l|f l| |c v ty w nw cm rf vr ov fo|c v w nw|l cm rf tg|v c id|ref|t|];
      unfold lgr_step in *; cbn [op_ok] in Ho; try contradiction.
    - pose proof (allch_lgr_add_cp g c cm rf tg w nw vr ov fo Ha (fun H k => P_fresh _ _ _ _ _ _ _ (Ho H))) as H.
      destruct (lgr_add_cp _ _ _ _ _ _ _ _ _ _). exact H.
    - unfold lgr_del_cp. destruct (check_convert g c) as [c1|e] eqn:Ec; [|exact Ha].
      destruct (rep_get_char (lg_rep g) c1); [|exact Ha].
      pose proof (allch_del_char (lg_rep g) c1 Hwf Ha) as H. destruct (rep_del_char (lg_rep g) c1) as [r [u|e]]; exact H.
    - pose proof (allch_lgr_add_range g f l cm rf tg w nw vr ov fo Hwf Ha (fun H y k => P_fresh _ _ _ _ _ _ _ (Ho H y))) as H.
      destruct (lgr_add_range _ _ _ _ _ _ _ _ _ _ _). exact H.
    - unfold lgr_del_range. destruct (N.ltb l f); [exact Ha|]. pose proof (allch_del_range (lg_rep g) f l Hwf Ha) as H.
      destruct (rep_del_range (lg_rep g) f l); exact H.
    - pose proof (allch_expand_range g f l Hwf Ha) as H. destruct (lgr_expand_range g f l). exact H.
    - unfold lgr_expand_ranges. pose proof (allch_expand_loop (rep_ranges (lg_rep g)) g Hwf Ha) as H.
      destruct (expand_loop g (rep_ranges (lg_rep g))). exact H.
    - unfold lgr_add_variant. destruct (check_convert g c) as [c1|e] eqn:Ec; [|exact Ha]. cbn [bind].
      destruct (check_convert g v) as [v1|e] eqn:Ev; [|exact Ha]. cbn [bind].
      apply check_convert_id in Ev. destruct Ev as [Ev _]. subst v1.
      destruct (_ && is_some nw)%bool; [exact Ha|]. destruct (check_validating vr ov fo c1 v); [|exact Ha].
      destruct (collect_refs_cases g fo rf) as [[e [H7 _]]|[H7 [_ H9]]]; rewrite H7; [exact Ha|].
      destruct (has_dup (kept_refs g rf) && negb fo)%bool eqn:Ed; [exact Ha|].
      assert (Hok : okv (mkVariant v ty w nw cm (kept_refs g rf))).
      { apply Ho. intro Hf. subst fo. rewrite (H9 eq_refl), andb_true_r in Ed. apply has_dup_false. exact Ed. }
      pose proof (allch_add_variant (lg_rep g) c1 (mkVariant v ty w nw cm (kept_refs g rf)) Hwf Ha (fun ch ch' W1 W2 => P_addv ch ch' _ W1 W2 Hok)) as H.
      destruct (rep_add_variant _ _ _) as [r [u|e]]; exact H.
    - unfold lgr_del_variant. destruct (check_convert g c) as [c1|e]; [|exact Ha].
      pose proof (allch_del_variant (lg_rep g) c1 v w nw Hwf Ha) as H. destruct (rep_del_variant _ _ _ _ _); exact H.
    - unfold lgr_add_codepoints. destruct l as [|x l]; [exact Ha|]. destruct (collapse_codepoints (x :: l)) as [rs|e]; [|exact Ha].
      pose proof (allch_add_collapsed rs g cm rf tg Hwf Ha (fun H1 H2 y k => P_fresh _ _ _ _ _ _ _ (Ho H1 H2 y))) as H.
      destruct (add_collapsed g cm rf tg rs). exact H.
    - unfold lgr_add_reference. destruct (rm_add (lg_refs g) v c id). exact Ha.
    - exact Ha.
  Qed.
End AllCh.
