(** The set of variant types an LGR reports. *)
From Coq Require Import Sorting.Sorted Permutation.
From Verif Require Import Base BaseFacts CharModel RepSpec RepProofs RangeProofs VariantProofs IterProofs UtilsModel UtilsSpec UtilsProofs RefModel RefProofs LgrModel LgrSpec LgrProofs LgrReach LgrRange LgrInv LgrTags LgrRefs LgrFinal VarSetSpec VarSetProofs ValidateModel ValidateSpec ValidateProofs ValidateFinal.
Open Scope string_scope.
Open Scope list_scope.

(** ** What one operation records *)
Definition gives (g : lgr) (o : lgr_op) (t : option string) : Prop :=
  exists c v w nw cm rf vr ov fo, o = LAddVariant c v t w nw cm rf vr ov fo /\ snd (lgr_step g o) = LUnit.

Lemma expand_range_types : forall g f l, lg_types (fst (lgr_expand_range g f l)) = lg_types g.
Proof.
  intros g f l. unfold lgr_expand_range. destruct (N.ltb l f); [reflexivity|].
  destruct (bind (check_convert g [f]) _) as [ch|e]; [|reflexivity]. destruct (rep_del_range _ f l) as [r [u|e]]; [|reflexivity].
  destruct (readd_loop r ch (nrange f l)) as [r' x]. reflexivity.
Qed.
Lemma expand_loop_types : forall l g, lg_types (fst (expand_loop g l)) = lg_types g.
Proof.
  induction l as [|[f la] l IH]; intro g; cbn [expand_loop]; [reflexivity|].
  pose proof (expand_range_types g f la) as H. destruct (lgr_expand_range g f la) as [g1 [u|e]]; cbn [fst] in *; [|exact H].
  rewrite IH. exact H.
Qed.
Ltac opn := repeat match goal with
  | |- context [match ?x with _ => _ end] => destruct x; try reflexivity
  end.
Lemma fold_tags_types : forall tags codepoints g,
  lg_types (fold_left (fun g x => add_cp_to_tag_classes g [x] tags) codepoints g) = lg_types g.
Proof. intros tags. induction codepoints as [|x l IH]; intro g; cbn [fold_left]; [reflexivity|]. rewrite IH. reflexivity. Qed.
Lemma add_cp_types : forall g c cm rf tg w nw vr ov fo, lg_types (fst (lgr_add_cp g c cm rf tg w nw vr ov fo)) = lg_types g.
Proof.
  intros. unfold lgr_add_cp. destruct (check_convert g c) as [c1|e]; [|reflexivity].
  destruct (_ && is_some nw)%bool; [reflexivity|]. destruct (check_validating vr ov fo c1 c1); [|reflexivity].
  destruct (collect_refs (lg_refs g) fo rf) as [rs|e]; [|reflexivity]. destruct (has_dup rs && negb fo)%bool; [reflexivity|].
  destruct (_ && _ && negb fo)%bool; [reflexivity|]. destruct (has_dup tg && negb fo)%bool; [reflexivity|].
  destruct (rep_add_char _ _ _ _ _ _ _) as [r [u|e]]; reflexivity.
Qed.
Lemma add_range_types : forall g f l cm rf tg w nw vr ov fo, lg_types (fst (lgr_add_range g f l cm rf tg w nw vr ov fo)) = lg_types g.
Proof.
  intros. unfold lgr_add_range. destruct (N.ltb l f); [reflexivity|]. destruct (_ && is_some nw)%bool; [reflexivity|].
  destruct (check_range g f l vr) as [st|e]; [|reflexivity]. destruct (select_cps g ov fo st) as [cs|e]; [|reflexivity].
  destruct (collect_refs (lg_refs g) fo rf) as [rs|e]; [|reflexivity]. destruct (has_dup rs && negb fo)%bool; [reflexivity|].
  destruct (has_dup tg && negb fo)%bool; [reflexivity|].
  destruct (insert_list _ _ _ _ _ _ _) as [r [u|e]]; cbn [fst]; [|reflexivity]. rewrite fold_tags_types. reflexivity.
Qed.
Lemma add_collapsed_types : forall l g cm rf tg, lg_types (fst (add_collapsed g cm rf tg l)) = lg_types g.
Proof.
  induction l as [|[f la] l IH]; intros g cm rf tg; cbn [add_collapsed]; [reflexivity|]. destruct (N.eqb f la).
  - pose proof (add_cp_types g [f] cm rf tg None None None false false) as H.
    destruct (lgr_add_cp _ _ _ _ _ _ _ _ _ _) as [g1 [u|e]]; cbn [fst] in *; [rewrite IH|]; exact H.
  - pose proof (add_range_types g f la cm rf tg None None None false false) as H.
    destruct (lgr_add_range _ _ _ _ _ _ _ _ _ _ _) as [g1 [u|e]]; cbn [fst] in *; [rewrite IH|]; exact H.
Qed.

Lemma step_types : forall g o t, In t (lg_types (fst (lgr_step g o))) <-> In t (lg_types g) \/ gives g o t.
Proof.
  intros g o t.
  assert (Hsame : (forall c v ty w nw cm rf vr ov fo, o <> LAddVariant c v ty w nw cm rf vr ov fo) ->
                  lg_types (fst (lgr_step g o)) = lg_types g ->
                  (In t (lg_types (fst (lgr_step g o))) <-> In t (lg_types g) \/ gives g o t)).
  { intros Hn Hs. rewrite Hs. split; [auto|]. intros [H|H]; [exact H|].
    destruct H as [c [v [w [nw [cm [rf [vr [ov [fo [H _]]]]]]]]]]. exfalso. eapply Hn. exact H. }
  destruct o as [c cm rf tg w nw vr ov fo|c|f l cm rf tg w nw vr ov fo|f l|f l| |c v ty w nw cm rf vr ov fo|c v w nw|l cm rf tg|v c id|ref|t0|];
    try (apply Hsame; [intros; discriminate|clear Hsame]; unfold lgr_step).
  - pose proof (add_cp_types g c cm rf tg w nw vr ov fo) as H. destruct (lgr_add_cp _ _ _ _ _ _ _ _ _ _). exact H.
  - unfold lgr_del_cp. destruct (check_convert g c) as [c1|e]; [|reflexivity]. destruct (rep_get_char (lg_rep g) c1); [|reflexivity].
    destruct (rep_del_char (lg_rep g) c1) as [r [u|e]]; reflexivity.
  - pose proof (add_range_types g f l cm rf tg w nw vr ov fo) as H. destruct (lgr_add_range _ _ _ _ _ _ _ _ _ _ _). exact H.
  - unfold lgr_del_range. destruct (N.ltb l f); [reflexivity|]. destruct (rep_del_range (lg_rep g) f l); reflexivity.
  - pose proof (expand_range_types g f l) as H. destruct (lgr_expand_range g f l). exact H.
  - unfold lgr_expand_ranges. pose proof (expand_loop_types (rep_ranges (lg_rep g)) g) as H.
    destruct (expand_loop g (rep_ranges (lg_rep g))). exact H.
  - clear Hsame. assert (Hg : gives g (LAddVariant c v ty w nw cm rf vr ov fo) t <->
                  t = ty /\ snd (lgr_step g (LAddVariant c v ty w nw cm rf vr ov fo)) = LUnit).
    { split.
      - intros [c' [v' [w' [nw' [cm' [rf' [vr' [ov' [fo' [H1 H2]]]]]]]]]]. injection H1 as H1. subst. auto.
      - intros [H1 H2]. subst ty. exists c, v, w, nw, cm, rf, vr, ov, fo. auto. }
    rewrite Hg. clear Hg. unfold lgr_step, lgr_add_variant.
    destruct (bind _ _) as [[c1 v1]|e]; [|cbn; intuition discriminate].
    destruct (_ && is_some nw)%bool; [cbn; intuition discriminate|]. destruct (check_validating vr ov fo c1 v1); [|cbn; intuition discriminate].
    destruct (collect_refs (lg_refs g) fo rf) as [rs|e]; [|cbn; intuition discriminate].
    destruct (has_dup rs && negb fo)%bool; [cbn; intuition discriminate|].
    destruct (rep_add_variant _ _ _) as [r [u|e]]; [|cbn; intuition discriminate].
    cbn [fst snd lout add_type lg_types set_rep]. destruct (memb ostring_eqb ty (lg_types g)) eqn:E.
    + apply (memb_In _ _ ostring_eqb_eq) in E. split; [auto|]. intros [H|[H _]]; [exact H|subst; exact E].
    + split; [intros [H|H]; [right; auto|left; exact H]|]. intros [H|[H _]]; [right; exact H|left; auto].
  - unfold lgr_del_variant. destruct (check_convert g c) as [c1|e]; [|reflexivity]. destruct (rep_del_variant _ _ _ _ _); reflexivity.
  - unfold lgr_add_codepoints. destruct l as [|x l]; [reflexivity|]. destruct (collapse_codepoints (x :: l)) as [rs|e]; [|reflexivity].
    pose proof (add_collapsed_types rs g cm rf tg) as H. destruct (add_collapsed g cm rf tg rs). exact H.
  - unfold lgr_add_reference. destruct (rm_add (lg_refs g) v c id); reflexivity.
  - unfold lgr_del_reference. destruct (rm_del _ ref); reflexivity.
  - reflexivity.
  - reflexivity.
Qed.

(** ** Every type in use is recorded *)
Definition typedP (T : list (option string)) (ch : char) : Prop := forall v, In v (get_variants ch) -> In (v_type v) T.
Lemma typedP_copy : forall T ch y k, typedP T ch ->
  typedP T (mkChar [y] k (ch_comment ch) (ch_refs ch) (ch_tags ch) (ch_when ch) (ch_not_when ch) []).
Proof. intros T ch y k H v Hv. contradiction. Qed.
Lemma typedP_delv : forall T ch ch' v w nw b, wf_char ch -> typedP T ch -> char_del_variant ch v w nw = Ok (ch', b) -> typedP T ch'.
Proof.
  intros T ch ch' v w nw b Hwf H E. destruct (char_del_variant_rest _ _ _ _ _ _ E) as [_ [_ [_ [Hr Hne]]]].
  destruct (del_variant_cases ch v w nw Hwf Hr Hne) as [c2 [b2 [E2 [_ [_ E3]]]]]. rewrite E in E2. injection E2 as E2 E4. subst c2 b2.
  intros u Hu. apply E3 in Hu. apply H. tauto.
Qed.
Lemma typedP_addv : forall T ch ch' v, wf_char ch -> typedP T ch -> In (v_type v) T -> char_add_variant ch v = Ok ch' -> typedP T ch'.
Proof.
  intros T ch ch' v Hwf H Hv E. destruct (char_add_variant_rest _ _ _ E) as [_ [_ [_ [Hr Hne]]]].
  destruct (add_variant_cases ch v Hwf Hr Hne) as [[_ E1]|[_ [c2 [E2 E3]]]]; [congruence|].
  rewrite E in E2. injection E2 as E2. subst c2. intros u Hu. apply E3 in Hu. destruct Hu as [Hu|Hu]; [subst; exact Hv|apply H; exact Hu].
Qed.
Lemma typed_step : forall g o, wf_rep (lg_rep g) -> allch (typedP (lg_types g)) (lg_rep g) ->
  allch (typedP (lg_types (fst (lgr_step g o)))) (lg_rep (fst (lgr_step g o))).
Proof.
  intros g o Hwf Ha. assert (Hmono : forall t, In t (lg_types g) -> In t (lg_types (fst (lgr_step g o)))).
  { intros t H. apply step_types. auto. }
  assert (Ha' : allch (typedP (lg_types (fst (lgr_step g o)))) (lg_rep g)).
  { intros c ch Hc v Hv. apply Hmono. eapply Ha; eauto. }
  pose proof (fun t => proj2 (step_types g o t)) as Hadd. set (T := lg_types (fst (lgr_step g o))) in *. clearbody T. clear Ha.
  destruct o as [c cm rf tg w nw vr ov fo|c|f l cm rf tg w nw vr ov fo|f l|f l| |c v ty w nw cm rf vr ov fo|c v w nw|l cm rf tg|v c id|ref|t|].
  11: { unfold lgr_step, lgr_del_reference. destruct (rm_del _ ref). cbn. unfold rep_del_reference.
        eapply allch_map; [reflexivity|exact Hwf| |exact Ha']. intros ch Hw H v Hv. apply get_variants_del_ref in Hv; [|exact Hw].
        destruct Hv as [u [Hu Hv]]. subst v. cbn [variant_del_ref v_type]. apply (H u). exact Hu. }
  11: { unfold lgr_step, lgr_del_tag. cbn. unfold rep_del_tag. eapply allch_map; [reflexivity|exact Hwf| |exact Ha'].
        intros ch _ H. exact H. }
  7: { destruct (snd (lgr_step g (LAddVariant c v ty w nw cm rf vr ov fo))) eqn:Eo.
       1: { apply (allch_step (typedP T) (typedP_copy _) (typedP_delv _) (fun _ _ _ => True)) with (okv := fun v => In (v_type v) T);
             [intros; intros u Hu; contradiction|exact (typedP_addv _)|exact Hwf|exact Ha'|]. intros _. cbn. apply Hadd. right.
            exists c, v, w, nw, cm, rf, vr, ov, fo. auto. }
       all: clear Hadd Hmono; revert Eo; unfold lgr_step, lgr_add_variant;
         (destruct (bind _ _) as [[c1 v1]|ee]; [|intros _; exact Ha']);
         (destruct (_ && is_some nw)%bool; [intros _; exact Ha'|]); (destruct (check_validating vr ov fo c1 v1); [|intros _; exact Ha']);
         (destruct (collect_refs (lg_refs g) fo rf) as [rs|ee]; [|intros _; exact Ha']);
         (destruct (has_dup rs && negb fo)%bool; [intros _; exact Ha'|]);
         unfold rep_add_variant; (destruct (rep_get_char _ _) as [ch|ee]; [|intros _; exact Ha']);
         (destruct (char_add_variant ch _) as [ch'|ee]; [cbn; discriminate|intros _; exact Ha']). }
  all: apply (allch_step (typedP T) (typedP_copy _) (typedP_delv _) (fun _ _ _ => True)) with (okv := fun v => In (v_type v) T);
    [intros; intros u Hu; contradiction|exact (typedP_addv _)|exact Hwf|exact Ha'|]; cbn [op_ok]; auto.
Qed.
Lemma reachable_typed : forall g, lgr_reachable g -> allch (typedP (lg_types g)) (lg_rep g).
Proof.
  intros g [db [al [ops H]]]. subst g. assert (Hgen : forall ops g, lgr_reachable g -> allch (typedP (lg_types g)) (lg_rep g) ->
    allch (typedP (lg_types (fst (lgr_run g ops)))) (lg_rep (fst (lgr_run g ops)))).
  { clear. induction ops as [|o ops IH]; intros g Hre Ha; cbn [lgr_run]; [exact Ha|].
    pose proof (typed_step g o (lgr_reachable_wf g Hre) Ha) as Hs. pose proof (lgr_reachable_step g o Hre) as Hre'.
    destruct (lgr_step g o) as [g1 x]. cbn [fst] in *. specialize (IH g1 Hre' Hs).
    destruct (lgr_run g1 ops) as [g2 xs]. exact IH. }
  apply Hgen; [exists db, al, []; reflexivity|]. intros [|x c] ch H; discriminate.
Qed.
Theorem types_cover : forall g a b v, lgr_reachable g -> mapping (lg_rep g) a b v -> In (v_type v) (lg_types g).
Proof.
  intros g a b v Hre [ch [H1 [H2 _]]]. rewrite lookup_lk in H1. eapply reachable_typed; eauto.
Qed.

(** ** And each was given by some successful addition *)
Lemma run_types : forall ops g t, In t (lg_types (fst (lgr_run g ops))) <->
  In t (lg_types g) \/ exists before o after, ops = before ++ o :: after /\ gives (fst (lgr_run g before)) o t.
Proof.
  induction ops as [|o ops IH]; intros g t; cbn [lgr_run].
  - split; [auto|]. intros [H|[b [o [a [H _]]]]]; [exact H|]. destruct b; discriminate.
  - pose proof (step_types g o t) as Hs. destruct (lgr_step g o) as [g1 x] eqn:E. cbn [fst] in Hs. specialize (IH g1 t).
    destruct (lgr_run g1 ops) as [g2 xs] eqn:E2. cbn [fst] in *. rewrite IH, Hs. split.
    + intros [[H|H]|[b [o2 [a [H1 H2]]]]]; [auto| |].
      * right. exists [], o, ops. auto.
      * right. exists (o :: b), o2, a. split; [cbn; congruence|]. cbn [lgr_run]. rewrite E. destruct (lgr_run g1 b). exact H2.
    + intros [H|[b [o2 [a [H1 H2]]]]]; [auto|]. destruct b as [|o3 b]; cbn [app] in H1; injection H1 as H1 H3; subst.
      * left. right. exact H2.
      * right. exists b, o2, a. split; [reflexivity|]. cbn [lgr_run] in H2. rewrite E in H2. destruct (lgr_run g1 b). exact H2.
Qed.
Theorem types_given : forall db al ops t, In t (lg_types (fst (lgr_run (new_lgr db al) ops))) <->
  exists before o after, ops = before ++ o :: after /\ gives (fst (lgr_run (new_lgr db al) before)) o t.
Proof.
  intros. rewrite run_types. split; [|auto]. intros [H|H]; [contradiction|exact H].
Qed.
Theorem types_stale : exists g t, lgr_reachable g /\ In t (lg_types g) /\ forall a b v, mapping (lg_rep g) a b v -> v_type v <> t.
Proof.
  exists (lgr_of [LAddCp [97] None [] [] None None None false false; LAddVariant [97] [98] (Some "blocked") None None None [] None false false; LDelVariant [97] [98] None None]), (Some "blocked").
  split; [apply lgr_of_reachable|]. split; [vm_compute; auto|]. intros a b v [ch [H1 [H2 _]]]. exfalso.
  rewrite lookup_lk in H1. destruct a as [|x a]; [discriminate|]. unfold lk in H1.
  destruct (N.eq_dec x 97) as [->|Hn].
  - set (l := bucket _ _) in H1. vm_compute in l. subst l. cbn [find] in H1. destruct (cps_eqb _ _) in H1; [|discriminate]. injection H1 as <-. contradiction.
  - unfold bucket in H1. set (d := rep_chars _) in H1. vm_compute in d. subst d. cbn [dget] in H1. apply N.eqb_neq in Hn. rewrite Hn in H1. discriminate.
Qed.
Lemma types_sample : let g := lgr_of stat_ops in
  In (Some "blocked") (lg_types g) /\ exists a b v, mapping (lg_rep g) a b v /\ v_type v = Some "blocked".
Proof.
  split; [vm_compute; auto|]. exists [1], [2; 3]. eexists. split; [|].
  - eexists. split; [vm_compute; reflexivity|]. split; [vm_compute; left; reflexivity|reflexivity].
  - reflexivity.
Qed.
