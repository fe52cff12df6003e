From Coq Require Import Sorting.Sorted Permutation.
From Verif Require Import Base BaseFacts CharModel RepSpec RepProofs RangeProofs VariantProofs UtilsModel UtilsSpec UtilsProofs RefModel RefProofs LgrModel LgrSpec LgrProofs LgrReach LgrRange LgrInv LgrTags.

(** ** The reference manager through the operations *)
Lemma expand_range_refs : forall g f l, lg_refs (fst (lgr_expand_range g f l)) = lg_refs g.
Proof.
  intros. unfold lgr_expand_range. destruct (N.ltb l f); auto. destruct (bind _ _) as [ch|e]; auto.
  destruct (rep_del_range (lg_rep g) f l) as [r [u|e]]; auto. destruct (readd_loop r ch (nrange f l)); auto.
Qed.
Lemma expand_loop_refs : forall l g, lg_refs (fst (expand_loop g l)) = lg_refs g.
Proof.
  induction l as [|[f la] l IH]; intros g; cbn [expand_loop]; auto. pose proof (expand_range_refs g f la) as H.
  destruct (lgr_expand_range g f la) as [g1 [u|e]]; auto. cbn [fst] in H. rewrite IH. exact H.
Qed.
Lemma add_collapsed_refs : forall l g cm rf tg, lg_refs (fst (add_collapsed g cm rf tg l)) = lg_refs g.
Proof.
  induction l as [|[f la] l IH]; intros; cbn [add_collapsed]; auto. destruct (N.eqb f la).
  - pose proof (add_cp_refs g [f] cm rf tg None None None false false) as H.
    destruct (lgr_add_cp g [f] cm rf tg None None None false false) as [g1 [u|e]]; cbn [fst] in H; auto. rewrite IH. exact H.
  - pose proof (add_range_refs g f la cm rf tg None None None false false) as H.
    destruct (lgr_add_range g f la cm rf tg None None None false false) as [g1 [u|e]]; cbn [fst] in H; auto. rewrite IH. exact H.
Qed.
Lemma step_refs : forall g o, match o with LAddReference _ _ _ | LDelReference _ => True | _ => lg_refs (fst (lgr_step g o)) = lg_refs g end.
Proof.
  intros g o. destruct o as [c cm rf tg w nw vr ov fo|c|f l cm rf tg w nw vr ov fo|f l|f l| |c v ty w nw cm rf vr ov fo|c v w nw|l cm rf tg|v c id|ref|t|];
    unfold lgr_step; auto.
  - pose proof (add_cp_refs g c cm rf tg w nw vr ov fo) as H. destruct (lgr_add_cp _ _ _ _ _ _ _ _ _ _). exact H.
  - unfold lgr_del_cp. destruct (check_convert g c) as [c1|e]; auto. destruct (rep_get_char (lg_rep g) c1); auto.
    destruct (rep_del_char (lg_rep g) c1) as [r [u|e]]; auto.
  - pose proof (add_range_refs g f l cm rf tg w nw vr ov fo) as H. destruct (lgr_add_range _ _ _ _ _ _ _ _ _ _ _). exact H.
  - unfold lgr_del_range. destruct (N.ltb l f); auto. destruct (rep_del_range (lg_rep g) f l); auto.
  - pose proof (expand_range_refs g f l) as H. destruct (lgr_expand_range g f l). exact H.
  - unfold lgr_expand_ranges. pose proof (expand_loop_refs (rep_ranges (lg_rep g)) g) as H.
    destruct (expand_loop g (rep_ranges (lg_rep g))). exact H.
  - unfold lgr_add_variant. destruct (bind _ _) as [[c1 v1]|e]; auto.
    destruct (_ && is_some nw)%bool; auto. destruct (check_validating vr ov fo c1 v1); auto.
    destruct (collect_refs (lg_refs g) fo rf) as [rs|e]; auto. destruct (has_dup rs && negb fo)%bool; auto.
    destruct (rep_add_variant _ _ _) as [r [u|e]]; auto.
  - unfold lgr_del_variant. destruct (check_convert g c) as [c1|e]; auto. destruct (rep_del_variant _ _ _ _ _); auto.
  - unfold lgr_add_codepoints. destruct l as [|x l]; auto. destruct (collapse_codepoints (x :: l)) as [rs|e]; auto.
    pose proof (add_collapsed_refs rs g cm rf tg) as H. destruct (add_collapsed g cm rf tg rs). exact H.
Qed.

(** ** Every citation is defined and cited once *)
Definition okrefs (m : refman) (rf : list string) : Prop :=
  NoDup rf /\ forall r, In r rf -> dget String.eqb r (rm_refs m) <> None.
Definition refP (m : refman) (ch : char) : Prop :=
  okrefs m (ch_refs ch) /\ forall v, In v (get_variants ch) -> okrefs m (v_refs v).

Lemma refP_copy : forall m ch y k, refP m ch ->
  refP m (mkChar [y] k (ch_comment ch) (ch_refs ch) (ch_tags ch) (ch_when ch) (ch_not_when ch) []).
Proof. intros m ch y k [H _]. split; [exact H|]. intros v Hv. contradiction. Qed.
Lemma char_del_variant_rest : forall ch v w nw ch' b, char_del_variant ch v w nw = Ok (ch', b) ->
  ch_refs ch' = ch_refs ch /\ ch_tags ch' = ch_tags ch /\ ch_cp ch' = ch_cp ch /\ is_range ch = false /\ v <> [].
Proof.
  intros ch v w nw ch' b H. unfold char_del_variant in H. destruct (is_range ch); [discriminate|].
  destruct v as [|x v]; [discriminate|]. 
  destruct (dget cps_eqb (x :: v) (ch_variants ch)) as [l|]; [|injection H as H1 H2; subst; repeat split; congruence].
  destruct (memb variant_eqb _ l); [|injection H as H1 H2; subst; repeat split; congruence].
  destruct (remove1 variant_eqb _ l); injection H as H1 H2; subst; repeat split; congruence.
Qed.
Lemma refP_delv : forall m ch ch' v w nw b, wf_char ch -> refP m ch -> char_del_variant ch v w nw = Ok (ch', b) -> refP m ch'.
Proof.
  intros m ch ch' v w nw b Hwf [H1 H2] H. destruct (char_del_variant_rest _ _ _ _ _ _ H) as [E1 [_ [_ [Hr Hne]]]].
  destruct (del_variant_cases ch v w nw Hwf Hr Hne) as [c2 [b2 [E2 [_ [_ E3]]]]]. rewrite H in E2. injection E2 as E2 E4. subst c2 b2.
  split; [rewrite E1; exact H1|]. intros u Hu. apply E3 in Hu. apply H2. tauto.
Qed.
Lemma char_add_variant_rest : forall ch v ch', char_add_variant ch v = Ok ch' ->
  ch_refs ch' = ch_refs ch /\ ch_tags ch' = ch_tags ch /\ ch_cp ch' = ch_cp ch /\ is_range ch = false /\ v_cp v <> [].
Proof.
  intros ch v ch' H. unfold char_add_variant in H. destruct (is_range ch); [discriminate|].
  destruct (v_cp v) as [|x c]; [discriminate|].
  destruct (dget cps_eqb (x :: c) (ch_variants ch)) as [l|]; [|injection H as H1; subst; repeat split; congruence].
  destruct (memb variant_eqb v l); [discriminate|]. injection H as H1; subst; repeat split; congruence.
Qed.
Lemma refP_addv : forall m ch ch' v, wf_char ch -> refP m ch -> okrefs m (v_refs v) -> char_add_variant ch v = Ok ch' -> refP m ch'.
Proof.
  intros m ch ch' v Hwf [H1 H2] Hv H. destruct (char_add_variant_rest _ _ _ H) as [E1 [_ [_ [Hr Hne]]]].
  destruct (add_variant_cases ch v Hwf Hr Hne) as [[_ E]|[_ [c2 [E2 E3]]]]; [congruence|].
  rewrite H in E2. injection E2 as E2. subst c2.
  split; [rewrite E1; exact H1|]. intros u Hu. apply E3 in Hu. destruct Hu as [Hu|Hu]; [subst; exact Hv|auto].
Qed.
Lemma okrefs_mono : forall m m' rf, (forall r, dget String.eqb r (rm_refs m) <> None -> dget String.eqb r (rm_refs m') <> None) ->
  okrefs m rf -> okrefs m' rf.
Proof. intros m m' rf Hm [H1 H2]. split; auto. Qed.
Lemma refP_mono : forall m m' ch, (forall r, dget String.eqb r (rm_refs m) <> None -> dget String.eqb r (rm_refs m') <> None) ->
  refP m ch -> refP m' ch.
Proof. intros m m' ch Hm [H1 H2]. split; [eapply okrefs_mono; eauto|]. intros v Hv. eapply okrefs_mono; eauto. Qed.

Lemma kept_ok : forall g rf, NoDup rf -> okrefs (lg_refs g) (kept_refs g rf).
Proof.
  intros g rf H. split; [apply NoDup_filter; exact H|]. intros r Hr. apply filter_In in Hr. destruct Hr as [_ Hr].
  apply defined_dmem in Hr. exact Hr.
Qed.

Lemma get_variants_del_ref : forall ref ch v, wf_char ch ->
  (In v (get_variants (char_del_ref ref ch)) <-> exists u, In u (get_variants ch) /\ v = variant_del_ref ref u).
Proof.
  intros ref ch v Hwf. rewrite get_variants_In by (apply char_del_ref_wf; exact Hwf). cbn [char_del_ref ch_variants]. split.
  - intros [l [H1 H2]]. apply in_map_iff in H1. destruct H1 as [[k l0] [E H1]]. cbn [fst snd] in E. injection E as E1 E2. subst k l.
    apply in_map_iff in H2. destruct H2 as [u [E H2]]. exists u. split; [|auto]. apply get_variants_In; [exact Hwf|].
    exists l0. subst v. split; auto.
  - intros [u [H E]]. apply get_variants_In in H; [|exact Hwf]. destruct H as [l [H1 H2]]. subst v.
    exists (map (variant_del_ref ref) l). split; [|apply in_map; exact H2].
    apply in_map_iff. exists (v_cp u, l). split; auto.
Qed.

Lemma remove1_drop : forall ref l, NoDup l -> remove1 String.eqb ref l = drop_ref ref l.
Proof.
  induction l as [|x l IH]; intro H; auto. inversion H; subst. cbn [remove1 drop_ref filter]. rewrite (String.eqb_sym x ref).
  destruct (String.eqb_spec ref x) as [E|E]; cbn [negb].
  - subst x. clear -H2. induction l as [|y l IH]; auto. cbn [filter]. destruct (String.eqb_spec y ref) as [E|E]; cbn [negb].
    + subst. exfalso. apply H2. left. reflexivity.
    + f_equal. apply IH. intro. apply H2. right. exact H.
  - f_equal. apply IH. auto.
Qed.
Lemma drop_In : forall ref r l, In r (drop_ref ref l) <-> In r l /\ r <> ref.
Proof.
  intros. unfold drop_ref. rewrite filter_In. destruct (String.eqb_spec r ref); cbn [negb]; split; intros [H1 H2]; split; auto; congruence.
Qed.
Lemma drop_same : forall ref l, ~ In ref l -> drop_ref ref l = l.
Proof.
  induction l as [|x l IH]; intro H; auto. cbn [drop_ref filter]. destruct (String.eqb_spec x ref) as [E|E].
  - exfalso. apply H. left. auto.
  - cbn [negb]. f_equal. apply IH. intro. apply H. right. auto.
Qed.

Lemma char_del_ref_uncite : forall m ref ch, wf_char ch -> refP m ch -> char_del_ref ref ch = uncite ref ch.
Proof.
  intros m ref ch Hwf [[H1 _] H2]. unfold char_del_ref, uncite. rewrite remove1_drop by exact H1. f_equal.
  apply map_ext_in. intros [k l] Hk. cbn [fst snd]. f_equal. apply map_ext_in. intros v Hv. unfold variant_del_ref.
  rewrite remove1_drop; auto. apply H2. apply get_variants_In; [exact Hwf|]. exists l. split; [|exact Hv].
  destruct Hwf as [[_ W] _]. destruct (W k l Hk) as [_ [_ [Hf _]]]. 
  match goal with |- In (?a, _) _ => replace a with k; [exact Hk|] end. symmetry. apply Hf. exact Hv.
Qed.
Lemma uncite_same : forall m ref ch, wf_char ch -> refP m ch -> dget String.eqb ref (rm_refs m) = None -> char_del_ref ref ch = ch.
Proof.
  intros m ref ch Hwf H Hu. rewrite (char_del_ref_uncite m) by auto. destruct H as [[_ H1] H2].
  destruct ch as [cp k cm rf tg w nw vs]. unfold uncite. cbn [ch_cp ch_kind ch_comment ch_refs ch_tags ch_when ch_not_when ch_variants] in *. rewrite drop_same by (intro Hi; apply (H1 _ Hi); exact Hu). f_equal.
  transitivity (map (fun x : cps * list variant => x) vs); [|apply map_id]. apply map_ext_in. intros [k0 l] Hk. cbn [fst snd]. f_equal.
  transitivity (map (fun x : variant => x) l); [|apply map_id]. apply map_ext_in. intros v Hv. rewrite drop_same; [destruct v; reflexivity|].
  intro Hi. eapply (H2 v); [|exact Hi|exact Hu]. apply get_variants_In; [exact Hwf|]. exists l. split; [|exact Hv]. 
  destruct Hwf as [[_ W] _]. destruct (W k0 l Hk) as [_ [_ [Hf _]]].
  match goal with |- In (?a, _) _ => replace a with k0; [exact Hk|] end. symmetry. apply Hf. exact Hv.
Qed.

(** ** The invariant *)
Definition rminv (g : lgr) : Prop := NoDup (dkeys (rm_refs (lg_refs g))) /\ allch (refP (lg_refs g)) (lg_rep g).

Lemma rm_add_mono : forall m v c id m' x, rm_add m v c id = (m', x) ->
  (forall r, dget String.eqb r (rm_refs m) <> None -> dget String.eqb r (rm_refs m') <> None).
Proof.
  intros m v c id m' x H r Hr. unfold rm_add in H. destruct id as [id|].
  - destruct (dmem String.eqb id (rm_refs m)); [injection H as H1 H2; subst; auto|].
    destruct (negb (ref_id_ok id)); [injection H as H1 H2; subst; auto|]. injection H as H1 H2. subst. cbn [rm_refs].
    rewrite (dget_dset _ string_eqb_iff). destruct (String.eqb r id); congruence.
  - destruct (next_free _ _ _); injection H as H1 H2; subst; auto. cbn [rm_refs].
    rewrite (dget_dset _ string_eqb_iff). destruct (String.eqb _ _); congruence.
Qed.
Lemma rm_add_nd : forall m v c id m' x, rm_add m v c id = (m', x) -> NoDup (dkeys (rm_refs m)) -> NoDup (dkeys (rm_refs m')).
Proof.
  intros m v c id m' x H Hn. unfold rm_add in H. destruct id as [id|].
  - destruct (dmem String.eqb id (rm_refs m)); [injection H as H1 H2; subst; auto|].
    destruct (negb (ref_id_ok id)); [injection H as H1 H2; subst; auto|]. injection H as H1 H2. subst. cbn [rm_refs].
    apply (dset_NoDup _ string_eqb_iff). exact Hn.
  - destruct (next_free _ _ _); injection H as H1 H2; subst; auto. cbn [rm_refs]. apply (dset_NoDup _ string_eqb_iff). exact Hn.
Qed.
Lemma rm_del_cases : forall m ref, NoDup (dkeys (rm_refs m)) ->
  (dget String.eqb ref (rm_refs m) = None /\ rm_del m ref = (m, Raise (ReferenceNotDefined ref))) \/
  (dget String.eqb ref (rm_refs m) <> None /\ exists m', rm_del m ref = (m', Ok tt) /\ NoDup (dkeys (rm_refs m')) /\
    forall r, dget String.eqb r (rm_refs m') = if String.eqb r ref then None else dget String.eqb r (rm_refs m)).
Proof.
  intros m ref Hn. unfold rm_del, dmem. destruct (dget String.eqb ref (rm_refs m)) as [rf0|] eqn:E; [right|left; auto].
  split; [discriminate|].
  destruct (py_int 10 (txt ref)); eexists; (split; [reflexivity|]); (split; [apply ddel_NoDup; exact Hn|]);
    intro r; apply (dget_ddel _ string_eqb_iff); exact Hn.
Qed.

Lemma refP_del_tag : forall m t ch, refP m ch -> refP m (char_del_tag t ch).
Proof. intros m t ch H. exact H. Qed.

Lemma allch_map : forall (P Q : char -> Prop) f r, (forall c, ch_cp (f c) = ch_cp c) -> wf_rep r -> (forall ch, wf_char ch -> P ch -> Q (f ch)) ->
  allch P r -> allch Q (map_chars f r).
Proof.
  intros P Q f r Hf Hwf Hpq Ha c ch H. rewrite lk_map_chars in H by exact Hf. destruct (lk r c) as [c0|] eqn:E; [|discriminate].
  injection H as H. subst. apply Hpq; [eapply lk_wf; eauto|eapply Ha; eauto].
Qed.

Lemma refP_del_ref : forall m m' ref ch, 
  (forall r, dget String.eqb r (rm_refs m') = if String.eqb r ref then None else dget String.eqb r (rm_refs m)) ->
  wf_char ch -> refP m ch -> refP m' (char_del_ref ref ch).
Proof.
  intros m m' ref ch Hm Hwf [H1 H2].
  assert (G : forall rf, okrefs m rf -> okrefs m' (remove1 String.eqb ref rf)).
  { intros rf [A B]. split; [apply remove1_NoDup; exact A|]. intros r Hr. rewrite Hm.
    destruct (String.eqb_spec r ref) as [E|E].
    - subst. exfalso. eapply (remove1_gone _ _ string_eqb_iff); [exact A|exact Hr].
    - apply B. eapply remove1_In_sub. exact Hr. }
  split; [apply G; exact H1|]. intros v Hv. apply get_variants_del_ref in Hv; [|exact Hwf]. destruct Hv as [u [Hu Hv]]. subst v.
  apply G. apply H2. exact Hu.
Qed.

Lemma map_chars_id : forall f r, wf_rep r -> (forall c ch, lk r c = Some ch -> f ch = ch) -> map_chars f r = r.
Proof.
  intros f r Hwf Hf. unfold map_chars, set_chars. destruct r as [rg d]. cbn [rep_chars rep_ranges]. f_equal.
  transitivity (map (fun kv : N * list char => kv) d); [|apply map_id]. apply map_ext_in. intros [k l] Hk. cbn [fst snd]. f_equal.
  transitivity (map (fun x : char => x) l); [|apply map_id]. apply map_ext_in. intros ch Hch.
  eapply Hf. apply in_all_chars_lk; [exact Hwf|]. unfold all_chars. apply in_flat_map. exists (k, l). split; auto.
Qed.

Lemma del_reference_unfold : forall g ref, rminv g -> wf_rep (lg_rep g) ->
  (~ defined_ref g ref /\ lgr_del_reference g ref = (g, Raise (ReferenceNotDefined ref))) \/
  (defined_ref g ref /\ exists m', lgr_del_reference g ref = (set_refs (set_rep g (rep_del_reference (lg_rep g) ref)) m', Ok tt) /\
    NoDup (dkeys (rm_refs m')) /\
    forall r, dget String.eqb r (rm_refs m') = if String.eqb r ref then None else dget String.eqb r (rm_refs (lg_refs g))).
Proof.
  intros g ref [Hn Ha] Hwf. unfold lgr_del_reference. cbn [set_rep lg_refs].
  destruct (rm_del_cases (lg_refs g) ref Hn) as [[H1 H2]|[H1 [m' [H2 [H3 H4]]]]]; rewrite H2.
  - left. split; [unfold defined_ref; congruence|]. f_equal. unfold rep_del_reference.
    rewrite map_chars_id; [destruct g; reflexivity|exact Hwf|]. intros c ch Hc. eapply uncite_same; [eapply lk_wf; eauto|eapply Ha; eauto|exact H1].
  - right. split; [exact H1|]. exists m'. auto.
Qed.

Lemma rminv_step : forall g o, wf_rep (lg_rep g) -> rminv g -> ref_tidy_op o -> rminv (fst (lgr_step g o)).
Proof.
  intros g o Hwf Hi Ho. assert (Hi0 := Hi). destruct Hi as [Hn Ha].
  assert (Hg : match o with LAddReference _ _ _ | LDelReference _ | LDelTag _ => False | _ => True end -> rminv (fst (lgr_step g o))).
  { intro Hk. assert (Hs := step_refs g o). assert (Hs' : lg_refs (fst (lgr_step g o)) = lg_refs g) by (destruct o; auto; contradiction).
    unfold rminv. rewrite Hs'. split; [exact Hn|].
    apply (allch_step (refP (lg_refs g)) (refP_copy _) (refP_delv _) (fun c rf tg => okrefs (lg_refs g) rf)) with (okv := fun v => okrefs (lg_refs g) (v_refs v)); auto.
    - intros c k cm rf tg w nw H. split; [exact H|]. intros v Hv. contradiction.
    - intros. eapply refP_addv; eauto.
    - destruct o as [c cm rf tg w nw vr ov fo|c|f l cm rf tg w nw vr ov fo|f l|f l| |c v ty w nw cm rf vr ov fo|c v w nw|l cm rf tg|v c id|ref|t|]; cbn [op_ok ref_tidy_op v_refs] in *; auto.
      + intro H. apply kept_ok. destruct fo; [auto|]. apply H. reflexivity.
      + intros H y. apply kept_ok. destruct fo; [auto|]. apply H. reflexivity.
      + intros H. apply kept_ok. destruct fo; auto.
      + intros H _ _. apply kept_ok. exact H. }
  destruct o as [c cm rf tg w nw vr ov fo|c|f l cm rf tg w nw vr ov fo|f l|f l| |c v ty w nw cm rf vr ov fo|c v w nw|l cm rf tg|v c id|ref|t|]; try (apply Hg; exact I); clear Hg.
  - unfold lgr_step, lgr_add_reference. destruct (rm_add (lg_refs g) v c id) as [m' x] eqn:E. cbn [fst]. unfold rminv. cbn [set_refs lg_refs lg_rep].
    split; [eapply rm_add_nd; eauto|]. intros d ch Hd. eapply refP_mono; [eapply rm_add_mono; eauto|eapply Ha; eauto].
  - unfold lgr_step. destruct (del_reference_unfold g ref Hi0 Hwf) as [[_ H]|[_ [m' [H [H1 H2]]]]]; rewrite H; cbn [fst]; auto.
    unfold rminv. cbn [set_refs set_rep lg_refs lg_rep]. split; [exact H1|]. unfold rep_del_reference.
    eapply allch_map; [reflexivity|exact Hwf| |exact Ha]. intros ch W Hp. eapply refP_del_ref; eauto.
  - unfold lgr_step, lgr_del_tag. cbn [fst]. unfold rminv. cbn. split; [exact Hn|]. unfold rep_del_tag.
    eapply allch_map; [reflexivity|exact Hwf| |exact Ha]. intros ch _ Hp. exact Hp.
Qed.

Lemma ref_tidy_reachable : forall g, ref_tidy g -> lgr_reachable g.
Proof. intros g H. induction H as [db al|g o H IH Ho]; [exists db, al, []; reflexivity|apply lgr_reachable_step; exact IH]. Qed.
Lemma ref_tidy_inv : forall g, ref_tidy g -> rminv g.
Proof.
  intros g H. induction H as [db al|g o H IH Ho].
  - split; [constructor|apply allch_empty].
  - apply rminv_step; auto. apply lgr_reachable_wf. apply ref_tidy_reachable. exact H.
Qed.

(** ** C13 *)
Theorem citations_defined : forall g ref, ref_tidy g -> cited g ref -> defined_ref g ref.
Proof.
  intros g ref Ht [c [ch [Hc Hr]]]. destruct (ref_tidy_inv g Ht) as [_ Ha]. rewrite lookup_lk in Hc. destruct (Ha _ _ Hc) as [H1 H2].
  destruct Hr as [Hr|[v [Hv Hr]]]; [apply H1; exact Hr|eapply H2; eauto].
Qed.

Theorem del_reference_spec : forall g ref, ref_tidy g ->
  let '(g', x) := lgr_del_reference g ref in
  (~ defined_ref g ref -> x = Raise (ReferenceNotDefined ref) /\ g' = g) /\
  (defined_ref g ref ->
    x = Ok tt /\
    ~ cited g' ref /\
    (forall r, dget String.eqb r (rm_refs (lg_refs g')) = if String.eqb r ref then None else dget String.eqb r (rm_refs (lg_refs g))) /\
    (forall c, lookup (lg_rep g') c = option_map (uncite ref) (lookup (lg_rep g) c)) /\
    rep_ranges (lg_rep g') = rep_ranges (lg_rep g) /\ lg_tags g' = lg_tags g /\ lg_types g' = lg_types g /\
    lg_db g' = lg_db g /\ lg_raise g' = lg_raise g).
Proof.
  intros g ref Ht. pose proof (ref_tidy_inv g Ht) as Hi. assert (Hwf : wf_rep (lg_rep g)) by (apply lgr_reachable_wf, ref_tidy_reachable, Ht).
  destruct (del_reference_unfold g ref Hi Hwf) as [[Hu H]|[Hd [m' [H [H1 H2]]]]]; rewrite H.
  - split; [auto|]. intro. contradiction.
  - split; [intro; contradiction|]. intros _. destruct Hi as [_ Ha].
    assert (L : forall c, lk (rep_del_reference (lg_rep g) ref) c = option_map (uncite ref) (lk (lg_rep g) c)).
    { intro c. unfold rep_del_reference. rewrite lk_map_chars by reflexivity. destruct (lk (lg_rep g) c) as [ch|] eqn:E; auto.
      cbn [option_map]. f_equal. eapply char_del_ref_uncite; [eapply lk_wf; eauto|eapply Ha; eauto]. }
    split; [reflexivity|]. split; [|split; [exact H2|split; [intro c; cbn [set_refs set_rep lg_rep]; rewrite !lookup_lk; apply L|repeat split]]].
    intros [c [ch [Hc Hr]]]. cbn [set_refs set_rep lg_rep] in Hc. rewrite lookup_lk in Hc. unfold rep_del_reference in Hc.
    rewrite lk_map_chars in Hc by reflexivity.
    destruct (lk (lg_rep g) c) as [c0|] eqn:E; [|discriminate]. cbn [option_map] in Hc. injection Hc as Hc. subst ch.
    pose proof (refP_del_ref _ m' ref c0 H2 (lk_wf _ _ _ Hwf E) (Ha _ _ E)) as [[_ P1] P2].
    destruct Hr as [Hr|[v [Hv Hr]]]; [apply P1 in Hr|apply (P2 v Hv) in Hr]; rewrite H2, String.eqb_refl in Hr; congruence.
Qed.
