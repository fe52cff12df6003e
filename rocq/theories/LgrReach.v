From Verif Require Import Base BaseFacts CharModel RepSpec RepProofs RangeProofs RefModel LgrModel LgrSpec LgrProofs.

Arguments rep_add_char : simpl never.
Arguments rep_add_range : simpl never.
Arguments rep_del_char : simpl never.
Arguments rep_del_range : simpl never.
Arguments rep_add_variant : simpl never.
Arguments rep_del_variant : simpl never.
Arguments lgr_add_cp : simpl never.
Arguments lgr_add_range : simpl never.
Arguments lgr_expand_range : simpl never.

(** Repertoire states reached by repertoire operations. *)
Definition rsteps (r r' : repertoire) : Prop := exists ops, r' = fst (rep_run r ops).

Lemma rep_run_app : forall o1 o2 r,
  fst (rep_run r (o1 ++ o2)) = fst (rep_run (fst (rep_run r o1)) o2).
Proof.
  induction o1 as [|o o1 IH]; intros o2 r; simpl; auto.
  destruct (rep_step r o) as [r1 x]. specialize (IH o2 r1).
  destruct (rep_run r1 (o1 ++ o2)), (rep_run r1 o1). simpl in *. exact IH.
Qed.

Lemma rsteps_refl : forall r, rsteps r r.
Proof. intro r. exists []. reflexivity. Qed.
Lemma rsteps_trans : forall a b c, rsteps a b -> rsteps b c -> rsteps a c.
Proof. intros a b c [o1 H1] [o2 H2]. exists (o1 ++ o2). rewrite rep_run_app. congruence. Qed.
Lemma rsteps_one : forall r o, rsteps r (fst (rep_step r o)).
Proof. intros r o. exists [o]. simpl. destruct (rep_step r o). reflexivity. Qed.

Lemma rsteps_add_char : forall r c cm rf tg w nw, rsteps r (fst (rep_add_char r c cm rf tg w nw)).
Proof.
  intros. pose proof (rsteps_one r (OpAddChar c cm rf tg w nw)) as H. simpl in H.
  destruct (rep_add_char r c cm rf tg w nw). exact H.
Qed.
Lemma rsteps_del_char : forall r c, rsteps r (fst (rep_del_char r c)).
Proof. intros. pose proof (rsteps_one r (OpDelChar c)) as H. unfold rep_step in H. destruct (rep_del_char r c). exact H. Qed.
Lemma rsteps_add_range : forall r f l cm rf tg w nw sk, rsteps r (fst (rep_add_range r f l cm rf tg w nw sk)).
Proof.
  intros. pose proof (rsteps_one r (OpAddRange f l cm rf tg w nw sk)) as H. unfold rep_step in H.
  destruct (rep_add_range r f l cm rf tg w nw sk). exact H.
Qed.
Lemma rsteps_del_range : forall r f l, rsteps r (fst (rep_del_range r f l)).
Proof. intros. pose proof (rsteps_one r (OpDelRange f l)) as H. unfold rep_step in H. destruct (rep_del_range r f l). exact H. Qed.
Lemma rsteps_add_variant : forall r c v, rsteps r (fst (rep_add_variant r c v)).
Proof. intros. pose proof (rsteps_one r (OpAddVariant c v)) as H. unfold rep_step in H. destruct (rep_add_variant r c v). exact H. Qed.
Lemma rsteps_del_variant : forall r c v w nw, rsteps r (fst (rep_del_variant r c v w nw)).
Proof. intros. pose proof (rsteps_one r (OpDelVariant c v w nw)) as H. unfold rep_step in H. destruct (rep_del_variant r c v w nw). exact H. Qed.

Lemma rsteps_insert_ranges : forall l r cm rf tg w nw, rsteps r (fst (insert_ranges r cm rf tg w nw l)).
Proof.
  induction l as [|[f la] l IH]; intros r cm rf tg w nw; simpl; [apply rsteps_refl|].
  destruct (N.eqb f la).
  - pose proof (rsteps_add_char r [f] cm rf tg w nw) as H.
    destruct (rep_add_char r [f] cm rf tg w nw) as [r1 [y|e]]; simpl in *; auto.
    eapply rsteps_trans; [exact H|apply IH].
  - pose proof (rsteps_add_range r f la cm rf tg w nw true) as H.
    destruct (rep_add_range r f la cm rf tg w nw true) as [r1 [y|e]]; simpl in *; auto.
    eapply rsteps_trans; [exact H|apply IH].
Qed.

Lemma rsteps_readd : forall l r ch, rsteps r (fst (readd_loop r ch l)).
Proof.
  induction l as [|x l IH]; intros r ch; cbn [readd_loop fst]; [apply rsteps_refl|].
  match goal with |- context [rep_add_char ?a ?b ?c ?d ?e ?f ?g] =>
    pose proof (rsteps_add_char a b c d e f g) as H; destruct (rep_add_char a b c d e f g) as [r1 [y|e']] end;
  simpl in *; auto.
  eapply rsteps_trans; [exact H|apply IH].
Qed.

Lemma lg_rep_add_tags : forall g c tags, lg_rep (add_cp_to_tag_classes g c tags) = lg_rep g.
Proof. reflexivity. Qed.
Lemma fold_tags_rep : forall tags l g,
  lg_rep (fold_left (fun g x => add_cp_to_tag_classes g [x] tags) l g) = lg_rep g.
Proof. intros tags. induction l as [|x l IH]; intro g; simpl; auto. rewrite IH. reflexivity. Qed.
Lemma fold_tags_db : forall tags l g,
  lg_db (fold_left (fun g x => add_cp_to_tag_classes g [x] tags) l g) = lg_db g /\
  lg_raise (fold_left (fun g x => add_cp_to_tag_classes g [x] tags) l g) = lg_raise g /\
  lg_types (fold_left (fun g x => add_cp_to_tag_classes g [x] tags) l g) = lg_types g /\
  lg_refs (fold_left (fun g x => add_cp_to_tag_classes g [x] tags) l g) = lg_refs g.
Proof. intros tags. induction l as [|x l IH]; intro g; simpl; [auto|]. exact (IH (add_cp_to_tag_classes g [x] tags)). Qed.

Lemma rsteps_lgr_add_cp : forall g c cm rf tg w nw vr ov fo,
  rsteps (lg_rep g) (lg_rep (fst (lgr_add_cp g c cm rf tg w nw vr ov fo))).
Proof.
  intros g c cm rf tg w nw vr ov fo. unfold lgr_add_cp.
  destruct (check_convert g c) as [c1|e]; [|apply rsteps_refl].
  destruct (_ && is_some nw)%bool; [apply rsteps_refl|].
  destruct (check_validating vr ov fo c1 c1); [|apply rsteps_refl].
  destruct (collect_refs (lg_refs g) fo rf) as [rs|e]; [|apply rsteps_refl].
  destruct (has_dup rs && negb fo)%bool; [apply rsteps_refl|].
  destruct (_ && negb fo)%bool; [apply rsteps_refl|].
  destruct (has_dup tg && negb fo)%bool; [apply rsteps_refl|].
  pose proof (rsteps_add_char (lg_rep g) c1 cm rs tg w nw) as H.
  destruct (rep_add_char (lg_rep g) c1 cm rs tg w nw) as [r [y|e]]; exact H.
Qed.

Lemma rsteps_lgr_add_range : forall g f l cm rf tg w nw vr ov fo,
  rsteps (lg_rep g) (lg_rep (fst (lgr_add_range g f l cm rf tg w nw vr ov fo))).
Proof.
  intros g f l cm rf tg w nw vr ov fo. unfold lgr_add_range.
  destruct (N.ltb l f); [apply rsteps_refl|].
  destruct (_ && is_some nw)%bool; [apply rsteps_refl|].
  destruct (check_range g f l vr) as [st|e]; [|apply rsteps_refl].
  destruct (select_cps g ov fo st) as [ks|e]; [|apply rsteps_refl].
  destruct (collect_refs (lg_refs g) fo rf) as [rs|e]; [|apply rsteps_refl].
  destruct (has_dup rs && negb fo)%bool; [apply rsteps_refl|].
  destruct (has_dup tg && negb fo)%bool; [apply rsteps_refl|].
  unfold insert_list. destruct (UtilsModel.collapse_codepoints ks) as [cs|e].
  - pose proof (rsteps_insert_ranges cs (lg_rep g) cm rs tg w nw) as H.
    destruct (insert_ranges (lg_rep g) cm rs tg w nw cs) as [r [u|e]]; cbn [fst]; [|exact H].
    rewrite fold_tags_rep. exact H.
  - apply rsteps_refl.
Qed.

Lemma rsteps_expand : forall g f l, rsteps (lg_rep g) (lg_rep (fst (lgr_expand_range g f l))).
Proof.
  intros g f l. unfold lgr_expand_range. destruct (N.ltb l f); [apply rsteps_refl|].
  destruct (bind _ _) as [ch|e]; [|apply rsteps_refl].
  pose proof (rsteps_del_range (lg_rep g) f l) as H.
  destruct (rep_del_range (lg_rep g) f l) as [r [u|e]]; cbn [fst]; [|exact H].
  pose proof (rsteps_readd (nrange f l) r ch) as H2. destruct (readd_loop r ch (nrange f l)) as [r' x].
  simpl in *. eapply rsteps_trans; eauto.
Qed.

Lemma rsteps_expand_loop : forall l g, rsteps (lg_rep g) (lg_rep (fst (expand_loop g l))).
Proof.
  induction l as [|[f la] l IH]; intro g; cbn [expand_loop fst]; [apply rsteps_refl|].
  pose proof (rsteps_expand g f la) as H. destruct (lgr_expand_range g f la) as [g' [u|e]]; simpl in *; auto.
  eapply rsteps_trans; [exact H|apply IH].
Qed.

Lemma rsteps_add_collapsed : forall l g cm rf tg, rsteps (lg_rep g) (lg_rep (fst (add_collapsed g cm rf tg l))).
Proof.
  induction l as [|[f la] l IH]; intros g cm rf tg; cbn [add_collapsed fst]; [apply rsteps_refl|].
  destruct (N.eqb f la).
  - pose proof (rsteps_lgr_add_cp g [f] cm rf tg None None None false false) as H.
    destruct (lgr_add_cp g [f] cm rf tg None None None false false) as [g' [u|e]]; simpl in *; auto.
    eapply rsteps_trans; [exact H|apply IH].
  - pose proof (rsteps_lgr_add_range g f la cm rf tg None None None false false) as H.
    destruct (lgr_add_range g f la cm rf tg None None None false false) as [g' [u|e]]; simpl in *; auto.
    eapply rsteps_trans; [exact H|apply IH].
Qed.

Lemma lgr_step_rsteps : forall g o, rsteps (lg_rep g) (lg_rep (fst (lgr_step g o))).
Proof.
  intros g o. destruct o as [c cm rf tg w nw vr ov fo|c|f l cm rf tg w nw vr ov fo|f l|f l| |c v ty w nw cm rf vr ov fo|c v w nw|l cm rf tg|v c id|ref|t|];
    unfold lgr_step.
  - pose proof (rsteps_lgr_add_cp g c cm rf tg w nw vr ov fo) as H.
    destruct (lgr_add_cp g c cm rf tg w nw vr ov fo). exact H.
  - unfold lgr_del_cp. destruct (check_convert g c) as [c1|e]; [|apply rsteps_refl].
    destruct (rep_get_char (lg_rep g) c1) as [ch|e]; [|apply rsteps_refl].
    pose proof (rsteps_del_char (lg_rep g) c1) as H. destruct (rep_del_char (lg_rep g) c1) as [r [u|e]]; exact H.
  - pose proof (rsteps_lgr_add_range g f l cm rf tg w nw vr ov fo) as H.
    destruct (lgr_add_range g f l cm rf tg w nw vr ov fo). exact H.
  - unfold lgr_del_range. destruct (N.ltb l f); [apply rsteps_refl|].
    pose proof (rsteps_del_range (lg_rep g) f l) as H. destruct (rep_del_range (lg_rep g) f l). exact H.
  - pose proof (rsteps_expand g f l) as H. destruct (lgr_expand_range g f l). exact H.
  - pose proof (rsteps_expand_loop (rep_ranges (lg_rep g)) g) as H. unfold lgr_expand_ranges.
    destruct (expand_loop g (rep_ranges (lg_rep g))). exact H.
  - unfold lgr_add_variant. destruct (bind _ _) as [[c1 v1]|e]; [|apply rsteps_refl].
    destruct (_ && is_some nw)%bool; [apply rsteps_refl|].
    destruct (check_validating vr ov fo c1 v1); [|apply rsteps_refl].
    destruct (collect_refs (lg_refs g) fo rf) as [rs|e]; [|apply rsteps_refl].
    destruct (has_dup rs && negb fo)%bool; [apply rsteps_refl|].
    pose proof (rsteps_add_variant (lg_rep g) c1 (mkVariant v1 ty w nw cm rs)) as H.
    destruct (rep_add_variant (lg_rep g) c1 (mkVariant v1 ty w nw cm rs)) as [r [u|e]]; exact H.
  - unfold lgr_del_variant. destruct (check_convert g c) as [c1|e]; [|apply rsteps_refl].
    pose proof (rsteps_del_variant (lg_rep g) c1 v w nw) as H. destruct (rep_del_variant (lg_rep g) c1 v w nw). exact H.
  - unfold lgr_add_codepoints. destruct l as [|x l]; [apply rsteps_refl|].
    destruct (UtilsModel.collapse_codepoints (x :: l)) as [rs|e]; [|apply rsteps_refl].
    pose proof (rsteps_add_collapsed rs g cm rf tg) as H. destruct (add_collapsed g cm rf tg rs). exact H.
  - unfold lgr_add_reference. destruct (rm_add (lg_refs g) v c id). apply rsteps_refl.
  - unfold lgr_del_reference. destruct (rm_del _ ref). simpl.
    exact (rsteps_one (lg_rep g) (OpDelReference ref)).
  - exact (rsteps_one (lg_rep g) (OpDelTag t)).
  - apply rsteps_refl.
Qed.

Lemma lgr_run_rsteps : forall ops g, rsteps (lg_rep g) (lg_rep (fst (lgr_run g ops))).
Proof.
  induction ops as [|o ops IH]; intro g; simpl; [apply rsteps_refl|].
  pose proof (lgr_step_rsteps g o) as H. destruct (lgr_step g o) as [g1 x]. specialize (IH g1).
  destruct (lgr_run g1 ops). simpl in *. eapply rsteps_trans; eauto.
Qed.

Lemma lgr_reachable_rep : forall g, lgr_reachable g -> reachable (lg_rep g).
Proof.
  intros g [db [al [ops H]]]. subst. destruct (lgr_run_rsteps ops (new_lgr db al)) as [o Ho]. exists o. exact Ho.
Qed.
Lemma lgr_reachable_wf : forall g, lgr_reachable g -> wf_rep (lg_rep g).
Proof. intros g H. apply reachable_wf. apply lgr_reachable_rep. exact H. Qed.

Lemma lgr_run_app : forall o1 o2 g, fst (lgr_run g (o1 ++ o2)) = fst (lgr_run (fst (lgr_run g o1)) o2).
Proof.
  induction o1 as [|o o1 IH]; intros o2 g; simpl; auto.
  destruct (lgr_step g o) as [g1 x]. specialize (IH o2 g1).
  destruct (lgr_run g1 (o1 ++ o2)), (lgr_run g1 o1). simpl in *. exact IH.
Qed.
Lemma lgr_reachable_step : forall g o, lgr_reachable g -> lgr_reachable (fst (lgr_step g o)).
Proof.
  intros g o [db [al [ops H]]]. exists db, al, (ops ++ [o]). rewrite lgr_run_app, <- H. simpl.
  destruct (lgr_step g o). reflexivity.
Qed.

(** Well-formedness step by step. *)
Lemma rsteps_wf : forall r r', wf_rep r -> rsteps r r' -> wf_rep r'.
Proof.
  intros r r' Hwf [ops H]. subst. revert r Hwf. induction ops as [|o ops IH]; intros r Hwf; simpl; auto.
  pose proof (step_refines r (abst r) o (agree_abst r Hwf)) as HS.
  destruct (rep_step r o) as [r1 x]. destruct (a_step (abst r) o) as [a1 y].
  destruct HS as [[Hw _] _]. specialize (IH r1 Hw). destruct (rep_run r1 ops). exact IH.
Qed.

(** ** C08 *)
Theorem add_cp_spec : forall g c cm rf tg w nw vr ov fo,
  exists r, first_failing (add_cp_checks g c rf tg w nw vr ov fo) r /\
  let '(g', x) := lgr_add_cp g c cm rf tg w nw vr ov fo in
  match r with
  | Some e => x = Raise e /\ g' = g
  | None =>
      x = Ok tt /\
      lookup (lg_rep g') c = Some (mkChar c (kind_of c) cm (kept_refs g rf) tg w nw []) /\
      (forall d, d <> c -> lookup (lg_rep g') d = lookup (lg_rep g) d) /\
      rep_ranges (lg_rep g') = rep_ranges (lg_rep g) /\
      lg_db g' = lg_db g /\ lg_raise g' = lg_raise g /\ lg_types g' = lg_types g /\ lg_refs g' = lg_refs g
  end.
Proof.
  intros g c cm rf tg w nw vr ov fo. destruct (add_cp_unfold g c cm rf tg w nw vr ov fo) as [r [H1 H2]].
  exists r. split; auto. rewrite H2. destruct r as [e|]; [auto|].
  assert (Hc : c <> []).
  { intro Hc. unfold add_cp_checks in H1. cbn [first_failing] in H1.
    destruct H1 as [[e [_ H]]|[H _]]; [discriminate|]. apply (H (LGRApiInvalidParameter "cp_or_sequence")). split; auto. }
  assert (Hn : lk (lg_rep g) c = None).
  { unfold add_cp_checks in H1. cbn [first_failing] in H1.
    do 8 (destruct H1 as [[e [_ H]]|[_ H1]]; [discriminate|]).
    destruct H1 as [[e [_ H]]|[H _]]; [discriminate|].
    destruct (lk (lg_rep g) c) eqn:E; auto. exfalso. apply (H (CharAlreadyExists c)). split; auto.
    apply present_lk. congruence. }
  split; [reflexivity|]. cbn. split; [|split].
  - rewrite lookup_lk, lk_ins by assumption. cbn [ch_cp]. rewrite cps_eqb_refl. reflexivity.
  - intros d Hd. rewrite !lookup_lk, lk_ins by assumption. cbn [ch_cp].
    destruct (cps_eqb d c) eqn:E; [apply cps_eqb_eq in E; contradiction|reflexivity].
  - split; [|auto]. unfold ins. cbn [ch_cp]. destruct c; [congruence|reflexivity].
Qed.

(** The same for [force]: the only checks that remain are the empty input,
    the IDNA property, the validating repertoire's own IDNA property, and
    presence. *)
Theorem add_cp_forced : forall g c rf tg w nw vr ov e,
  snd (lgr_add_cp g c None rf tg w nw vr ov true) = Raise e ->
  chk_empty c e \/ chk_idna g c e \/ chk_present g c e \/
  (exists v x, vr = Some v /\ In x c /\ lg_raise v = true /\ idna_invalid v x /\ e = CharInvalidIdnaProperty [x]).
Proof.
  intros g c rf tg w nw vr ov e H. destruct (add_cp_unfold g c None rf tg w nw vr ov true) as [r [H1 H2]].
  rewrite H2 in H. destruct r as [e'|]; [|discriminate]. simpl in H. injection H as H. subst e'.
  unfold add_cp_checks in H1. cbn [first_failing] in H1.
  destruct H1 as [[e0 [A B]]|[_ H1]]; [injection B as B; subst; auto|].
  destruct H1 as [[e0 [A B]]|[_ H1]]; [injection B as B; subst; auto|].
  destruct H1 as [[e0 [[A _] B]]|[_ H1]]; [discriminate|].
  destruct H1 as [[e0 [A B]]|[_ H1]].
  { injection B as B. subst e0. right. right. right. destruct A as [v [x [A1 [A2 A3]]]].
    apply first_such_In in A2. exists v, x. split; auto. split; [tauto|].
    destruct A3 as [A3|[_ [_ [_ [A3 _]]]]]; [tauto|discriminate]. }
  destruct H1 as [[e0 [[A _] B]]|[_ H1]]; [discriminate|].
  destruct H1 as [[e0 [[A _] B]]|[_ H1]]; [discriminate|].
  destruct H1 as [[e0 [[A _] B]]|[_ H1]]; [discriminate|].
  destruct H1 as [[e0 [[A _] B]]|[_ H1]]; [discriminate|].
  destruct H1 as [[e0 [A B]]|[_ H1]]; [injection B as B; subst; auto|discriminate].
Qed.

(** ** C02 *)
Lemma update_first_same : forall c ch l, find (fun x => cps_eqb c (ch_cp x)) l = Some ch -> update_first c ch l = l.
Proof.
  intros c ch l. induction l as [|x l IH]; simpl; intro H; [discriminate|].
  destruct (cps_eqb c (ch_cp x)); [injection H as H; congruence|]. f_equal. auto.
Qed.
Lemma rep_put_same : forall r c ch, lk r c = Some ch -> rep_put r c ch = r.
Proof.
  intros r [|x t] ch H; [discriminate|]. unfold rep_put. unfold lk, bucket in H.
  destruct (dget N.eqb x (rep_chars r)) as [l|] eqn:E; [|reflexivity].
  rewrite update_first_same by exact H. rewrite (dset_same _ N_eqb_iff) by exact E. destruct r; reflexivity.
Qed.

Lemma rep_add_variant_raise : forall r c v r' e, rep_add_variant r c v = (r', Raise e) -> r' = r.
Proof.
  intros r c v r' e H. unfold rep_add_variant in H. destruct (rep_get_char r c); [|congruence].
  destruct (char_add_variant a v); congruence.
Qed.
Lemma rep_del_variant_false : forall r c v w nw r' x, c <> [] -> rep_del_variant r c v w nw = (r', x) ->
  x <> Ok true -> r' = r.
Proof.
  intros r c v w nw r' x Hc H Hx. unfold rep_del_variant in H.
  rewrite get_char_lk in H by exact Hc. destruct (lk r c) as [ch|] eqn:E; [|congruence].
  destruct (char_del_variant ch v w nw) as [[ch' b]|e] eqn:Ed; [|congruence].
  injection H as H1 H2. subst. destruct b; [congruence|].
  assert (ch' = ch).
  { unfold char_del_variant in Ed. destruct (is_range ch); [discriminate|]. destruct v as [|y ys]; [discriminate|].
    destruct (dget cps_eqb (y :: ys) (ch_variants ch)) as [l|]; [|congruence].
    destruct (memb variant_eqb _ l); [|congruence].
    destruct (remove1 variant_eqb _ l); discriminate. }
  subst ch'. apply rep_put_same. exact E.
Qed.

Theorem failed_edit_changes_nothing : forall g o g' x,
  match o with
  | LAddCp _ _ _ _ _ _ _ _ _ | LDelCp _ | LAddVariant _ _ _ _ _ _ _ _ _ _ | LDelVariant _ _ _ _
  | LAddReference _ _ _ => True
  | _ => False
  end ->
  lgr_step g o = (g', x) ->
  (exists e, x = LExn e) \/ x = LBool false ->
  g' = g.
Proof.
  intros g o g' x Ho H Hx. destruct o as [c cm rf tg w nw vr ov fo|c|f l cm rf tg w nw vr ov fo|f l|f l| |c v ty w nw cm rf vr ov fo|c v w nw|l cm rf tg|v c id|ref|t|];
    try contradiction; unfold lgr_step in H.
  - destruct (add_cp_unfold g c cm rf tg w nw vr ov fo) as [r [_ H2]]. rewrite H2 in H.
    destruct r as [e|]; injection H as H H3; [auto|]. subst x. destruct Hx as [[e He]|He]; discriminate.
  - unfold lgr_del_cp in H. destruct (check_convert g c) as [c1|e] eqn:Ec; [|congruence].
    apply check_convert_id in Ec. destruct Ec as [Ec Hne]. subst c1.
    rewrite get_char_lk in H by exact Hne. destruct (lk (lg_rep g) c) as [ch|] eqn:E; [|congruence].
    unfold rep_del_char in H. destruct c as [|y t]; [congruence|]. rewrite del_char_unfold, E in H.
    injection H as H H3. subst x. destruct Hx as [[e He]|He]; discriminate.
  - unfold lgr_add_variant in H. destruct (bind _ _) as [[c1 v1]|e]; [|congruence].
    destruct (_ && is_some nw)%bool; [congruence|].
    destruct (check_validating vr ov fo c1 v1); [|congruence].
    destruct (collect_refs (lg_refs g) fo rf) as [rs|e]; [|congruence].
    destruct (has_dup rs && negb fo)%bool; [congruence|].
    destruct (rep_add_variant (lg_rep g) c1 (mkVariant v1 ty w nw cm rs)) as [r [u|e]] eqn:E.
    + injection H as H H3. subst x. destruct Hx as [[e He]|He]; discriminate.
    + apply rep_add_variant_raise in E. subst r. rewrite set_rep_id in H. congruence.
  - unfold lgr_del_variant in H. destruct (check_convert g c) as [c1|e] eqn:Ec; [|congruence].
    apply check_convert_id in Ec. destruct Ec as [Ec Hne]. subst c1.
    destruct (rep_del_variant (lg_rep g) c v w nw) as [r y] eqn:E.
    injection H as H H3. apply rep_del_variant_false in E; auto.
    + subst. apply set_rep_id.
    + intro Hy. subst. destruct Hx as [[e He]|He]; discriminate.
  - unfold lgr_add_reference in H. destruct (rm_add (lg_refs g) v c id) as [m [s|e]] eqn:E.
    + injection H as H H3. subst x. destruct Hx as [[e He]|He]; discriminate.
    + injection H as H H3. subst.
      assert (m = lg_refs g).
      { unfold rm_add in E. repeat match type of E with context [match ?t with _ => _ end] => destruct t end; congruence. }
      subst m. destruct g; reflexivity.
Qed.

(** ** C09 *)
Lemma cp_status_cases : forall g vr x,
  (~ idna_invalid g x /\ vr_raises vr x /\ cp_status g vr x = Raise (CharInvalidIdnaProperty [x])) \/
  ((idna_invalid g x \/ ~ vr_raises vr x) /\ exists s, cp_status g vr x = Ok s /\ range_status g vr x s).
Proof.
  intros g vr x. unfold cp_status.
  set (g1 := mkLgr (lg_rep g) (lg_db g) true (lg_types g) (lg_refs g) (lg_tags g)).
  assert (Hi : forall y, idna_invalid g1 y <-> idna_invalid g y) by (intro y; reflexivity).
  change (check_convert_with (lg_db g) true [x]) with (check_convert g1 [x]).
  destruct (check_convert_cases g1 [x]) as [[e [H1 [H2|[_ H2]]]]|[H1 [H2 [H3 H4]]]].
  - destruct H2 as [H2 _]. discriminate.
  - rewrite H1. destruct H2 as [Hr [y [Hy He]]]. apply first_such_In in Hy.
    destruct Hy as [[Hy|[]] Hp]. subst y e. apply Hi in Hp. right. split; auto. eexists. split; [reflexivity|].
    constructor. exact Hp.
  - rewrite H1.
    assert (Hv : ~ idna_invalid g x).
    { intro Hx. apply (H4 (CharInvalidIdnaProperty [x])). split; auto. exists x. split; auto.
      apply first_such_here. apply Hi. exact Hx. }
    destruct vr as [v|].
    + destruct (check_cp_cases v x) as [[A1 [A2 A3]]|[An [[A1 A2]|[A1 A2]]]]; rewrite A1; cbn [bind negb].
      * left. split; auto. split; auto. exists v. auto.
      * right. split; [right; intros [v' [E [B C]]]; injection E as E; subst; tauto|].
        rewrite rep_contains_lk by discriminate. cbn [bind]. eexists. split; [reflexivity|].
        destruct (lk (lg_rep g) [x]) eqn:E.
        -- apply RSt_exists; auto; [intros v' Ev; congruence|]. apply present_lk. congruence.
        -- apply RSt_ok; auto; [intros v' Ev; congruence|]. rewrite present_lk. congruence.
      * right. split; [right; intros [v' [E [B C]]]; injection E as E; subst; tauto|].
        eexists. split; [reflexivity|]. eapply RSt_rep; eauto.
    + right. split; [right; intros [v' [E _]]; discriminate|]. cbn [bind negb].
      rewrite rep_contains_lk by discriminate. cbn [bind]. eexists. split; [reflexivity|].
      destruct (lk (lg_rep g) [x]) eqn:E.
      -- apply RSt_exists; auto; [intros v' Ev; congruence|]. apply present_lk. congruence.
      -- apply RSt_ok; auto; [intros v' Ev; congruence|]. rewrite present_lk. congruence.
Qed.

Lemma range_status_unique : forall g vr x s1 s2, range_status g vr x s1 -> range_status g vr x s2 -> s1 = s2.
Proof.
  intros g vr x s1 s2 H1 H2. destruct H1, H2; auto; try contradiction; exfalso;
    repeat match goal with
    | A : vr = Some ?v, B : forall v, vr = Some v -> _ |- _ => specialize (B v A)
    end; try contradiction; try congruence.
Qed.

Lemma statuses_cases : forall g vr l,
  (exists x, first_such (fun y => ~ idna_invalid g y /\ vr_raises vr y) l x /\
     mapM_res (fun x => bind (cp_status g vr x) (fun s => Ok (x, s))) l = Raise (CharInvalidIdnaProperty [x])) \/
  ((forall y, In y l -> idna_invalid g y \/ ~ vr_raises vr y) /\
   exists st, mapM_res (fun x => bind (cp_status g vr x) (fun s => Ok (x, s))) l = Ok st /\
     map fst st = l /\ forall x s, In (x, s) st -> range_status g vr x s).
Proof.
  intros g vr l. induction l as [|x l IH].
  - right. split; [intros y []|]. exists []. repeat split; auto. intros x s [].
  - cbn [mapM_res]. destruct (cp_status_cases g vr x) as [[H1 [H2 H3]]|[H1 [s [H2 H3]]]].
    + left. exists x. split; [apply first_such_here; auto|]. rewrite H3. reflexivity.
    + rewrite H2. cbn [bind]. destruct IH as [[y [A B]]|[A [st [B [C D]]]]].
      * left. exists y. split; [apply first_such_cons_neg; auto; tauto|]. rewrite B. reflexivity.
      * right. split; [intros z [Hz|Hz]; [subst; auto|auto]|]. rewrite B. cbn [bind]. eexists. split; [reflexivity|].
        simpl. rewrite C. split; auto. intros z s' [Hz|Hz]; [injection Hz as E1 E2; subst; auto|auto].
Qed.

Theorem check_range_spec : forall g f l vr,
  (l < f /\ check_range g f l vr = Raise (LGRApiInvalidParameter "first_cp")) \/
  (f <= l /\
   ((exists x, first_such (fun y => ~ idna_invalid g y /\ vr_raises vr y) (nrange f l) x /\
       check_range g f l vr = Raise (CharInvalidIdnaProperty [x])) \/
    (exists st, check_range g f l vr = Ok st /\ map fst st = nrange f l /\
       forall x s, In (x, s) st -> range_status g vr x s))).
Proof.
  intros g f l vr. unfold check_range. destruct (N.ltb_spec l f) as [H|H]; [auto|]. right. split; auto.
  destruct (statuses_cases g vr (nrange f l)) as [[x [A B]]|[_ [st [B [C D]]]]]; [left; eauto|right; eauto].
Qed.
