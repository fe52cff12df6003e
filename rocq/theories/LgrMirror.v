From Coq Require Import Sorting.Sorted Permutation.
From Verif Require Import Base BaseFacts CharModel RepSpec RepProofs RangeProofs VariantProofs UtilsModel UtilsSpec UtilsProofs RefModel RefProofs LgrModel LgrSpec LgrProofs LgrReach LgrRange LgrInv LgrTags LgrRefs.

(** Dictionary-level and repertoire-level forms of the two relations. *)
Definition tin (t : dict string (list N)) (tag : string) (x : N) : Prop :=
  exists s, dget String.eqb tag t = Some s /\ In x s.
Definition rcar (r : repertoire) (tag : string) (x : N) : Prop :=
  exists ch, lk r [x] = Some ch /\ In tag (ch_tags ch).
Lemma carries_rcar : forall g tag x, carries g tag x <-> rcar (lg_rep g) tag x.
Proof. intros. unfold carries, rcar. split; intros [ch H]; exists ch; [rewrite <- lookup_lk|rewrite lookup_lk]; exact H. Qed.

Lemma set_update_In : forall c s x, In x (set_update s c) <-> In x s \/ In x c.
Proof.
  unfold set_update. induction c as [|y c IH]; intros s x; cbn [fold_left]; [simpl; tauto|].
  rewrite IH. unfold set_add. destruct (memb N.eqb y s) eqn:E.
  - apply (memb_In _ _ N_eqb_iff) in E. split; [intros [H|H]; [auto|right; right; exact H]|].
    intros [H|[H|H]]; [auto|subst; auto|auto].
  - simpl. split; [intros [[H|H]|H]; auto|intros [H|[H|H]]; auto].
Qed.
Lemma set_discard_In : forall c s x, In x (set_discard s c) <-> In x s /\ ~ In x c.
Proof.
  intros c s x. unfold set_discard. rewrite filter_In. split; intros [H1 H2]; split; auto.
  - intro H. apply (memb_In _ _ N_eqb_iff) in H. rewrite H in H2. discriminate.
  - destruct (memb N.eqb x c) eqn:E; auto. exfalso. apply H2. apply (memb_In _ _ N_eqb_iff). exact E.
Qed.

Lemma tin_add1 : forall c t tg tag x, tin (add_tag_class c t tg) tag x <-> tin t tag x \/ (tag = tg /\ In x c).
Proof.
  intros c t tg tag x. unfold tin, add_tag_class. rewrite (dget_dset _ string_eqb_iff).
  destruct (String.eqb_spec tag tg) as [E|E].
  - subst tg. split.
    + intros [s [H1 H2]]. injection H1 as H1. subst s. apply set_update_In in H2. destruct H2 as [H2|H2]; [left|auto].
      destruct (dget String.eqb tag t) as [s|]; [eauto|contradiction].
    + intro H. eexists. split; [reflexivity|]. apply set_update_In. destruct H as [[s [H1 H2]]|[_ H]]; [left; rewrite H1; exact H2|auto].
  - split; [auto|intros [H|[H _]]; [exact H|contradiction]].
Qed.
Lemma tin_add : forall c tags t tag x, tin (fold_left (add_tag_class c) tags t) tag x <-> tin t tag x \/ (In tag tags /\ In x c).
Proof.
  induction tags as [|tg tags IH]; intros t tag x; cbn [fold_left]; [simpl; tauto|].
  rewrite IH, tin_add1. simpl. split; [intros [[H|[H1 H2]]|[H1 H2]]; auto|intros [H|[[H1|H1] H2]]; auto].
Qed.
Lemma add_keys : forall c tags t, NoDup (dkeys t) -> NoDup (dkeys (fold_left (add_tag_class c) tags t)).
Proof. induction tags as [|tg tags IH]; intros t H; cbn [fold_left]; auto. apply IH. apply (dset_NoDup _ string_eqb_iff). exact H. Qed.
Lemma tin_del1 : forall c t tg tag x, tin (del_tag_class c t tg) tag x <-> tin t tag x /\ ~ (tag = tg /\ In x c).
Proof.
  intros c t tg tag x. unfold tin, del_tag_class. destruct (dget String.eqb tg t) as [s0|] eqn:E0.
  - rewrite (dget_dset _ string_eqb_iff). destruct (String.eqb_spec tag tg) as [E|E].
    + subst tg. rewrite E0. split.
      * intros [s [H1 H2]]. injection H1 as H1. subst s. apply set_discard_In in H2. split; [exists s0; tauto|tauto].
      * intros [[s [H1 H2]] H3]. injection H1 as H1. subst s. eexists. split; [reflexivity|]. apply set_discard_In. tauto.
    + split; [intro H; split; [exact H|tauto]|tauto].
  - split; [intros [s [H1 H2]]; split; [eauto|intros [H3 _]; congruence]|tauto].
Qed.
Lemma tin_del : forall c tags t tag x, tin (fold_left (del_tag_class c) tags t) tag x <-> tin t tag x /\ ~ (In tag tags /\ In x c).
Proof.
  induction tags as [|tg tags IH]; intros t tag x; cbn [fold_left]; [simpl; tauto|].
  rewrite IH, tin_del1. simpl. split; [intros [[H1 H2] H3]; split; [exact H1|intros [[H4|H4] H5]; [apply H2; auto|apply H3; auto]]|].
  intros [H1 H2]. split; [split; [exact H1|intros [H4 H5]; apply H2; auto]|intros [H4 H5]; apply H2; auto].
Qed.
Lemma del_keys : forall c tags t, NoDup (dkeys t) -> NoDup (dkeys (fold_left (del_tag_class c) tags t)).
Proof.
  induction tags as [|tg tags IH]; intros t H; cbn [fold_left]; auto. apply IH. unfold del_tag_class.
  destruct (dget String.eqb tg t); auto. apply (dset_NoDup _ string_eqb_iff). exact H.
Qed.
Lemma fold_tags_classes : forall tg ks g,
  (forall tag x, tin (lg_tags (fold_left (fun g x => add_cp_to_tag_classes g [x] tg) ks g)) tag x <->
     tin (lg_tags g) tag x \/ (In tag tg /\ In x ks)) /\
  (NoDup (dkeys (lg_tags g)) -> NoDup (dkeys (lg_tags (fold_left (fun g x => add_cp_to_tag_classes g [x] tg) ks g)))).
Proof.
  induction ks as [|k ks IH]; intro g; cbn [fold_left]; [split; [simpl; tauto|auto]|].
  destruct (IH (add_cp_to_tag_classes g [k] tg)) as [H1 H2]. split.
  - intros tag x. rewrite H1. cbn [add_cp_to_tag_classes set_tags lg_tags]. rewrite tin_add. simpl.
    split; [intros [[H|[Ha [Hb|Hb]]]|[Ha Hb]]; auto; contradiction|intros [H|[Ha [Hb|Hb]]]; auto].
  - intro H. apply H2. cbn [add_cp_to_tag_classes set_tags lg_tags]. apply add_keys. exact H.
Qed.

Definition tagP (ch : char) : Prop := NoDup (ch_tags ch) /\ ((1 < length (ch_cp ch))%nat -> ch_tags ch = []).
Record minv (g : lgr) : Prop := {
  mi_keys : NoDup (dkeys (lg_tags g));
  mi_chars : allch tagP (lg_rep g);
  mi_mirror : forall tag x, tin (lg_tags g) tag x <-> rcar (lg_rep g) tag x
}.

(** Same tags on the same entries. *)
Definition same_tags (r r' : repertoire) : Prop :=
  forall x, option_map ch_tags (lk r' [x]) = option_map ch_tags (lk r [x]).
Lemma same_tags_rcar : forall r r' tag x, same_tags r r' -> (rcar r' tag x <-> rcar r tag x).
Proof.
  intros r r' tag x H. specialize (H x). unfold rcar.
  destruct (lk r' [x]) as [a|], (lk r [x]) as [b|]; cbn [option_map] in H; try discriminate;
    [injection H as H|]; split; intros [ch [H1 H2]]; try discriminate; injection H1 as H1; subst ch; eexists; (split; [reflexivity|congruence]).
Qed.
Lemma same_tags_refl : forall r, same_tags r r.
Proof. intros r x. reflexivity. Qed.
Lemma same_tags_trans : forall a b c, same_tags a b -> same_tags b c -> same_tags a c.
Proof. intros a b c H1 H2 x. rewrite H2. apply H1. Qed.
Lemma same_tags_put : forall r c ch ch', lk r c = Some ch -> ch_cp ch' = ch_cp ch -> ch_tags ch' = ch_tags ch -> same_tags r (rep_put r c ch').
Proof.
  intros r c ch ch' H H1 H2 x. rewrite lk_put; [|rewrite H1; eapply lk_cp; exact H|congruence].
  destruct (cps_eqb [x] c) eqn:E; [apply cps_eqb_eq in E; subst c; rewrite H; cbn [option_map]; congruence|reflexivity].
Qed.
Lemma same_tags_map : forall f r, (forall c, ch_cp (f c) = ch_cp c) -> (forall c, ch_tags (f c) = ch_tags c) -> same_tags r (map_chars f r).
Proof. intros f r H1 H2 x. rewrite lk_map_chars by exact H1. destruct (lk r [x]); cbn [option_map]; congruence. Qed.

Lemma del_range_loop_lk : forall l r c, wf_rep r ->
  lk (fst (del_range_loop r l)) c = lk r c \/ (exists x, In x l /\ c = [x] /\ lk (fst (del_range_loop r l)) c = None).
Proof.
  induction l as [|x l IH]; intros r c Hwf; cbn [del_range_loop]; [auto|].
  rewrite del_char_unfold. destruct (lk r [x]) eqn:E; [|auto].
  destruct (IH (del r [x]) c (wf_del _ _ Hwf)) as [H|[y [H1 [H2 H3]]]].
  - rewrite H. rewrite lk_del by exact Hwf. destruct (cps_eqb c [x]) eqn:Ec; [|auto].
    apply cps_eqb_eq in Ec. right. exists x. split; [left; reflexivity|]. auto.
  - right. exists y. split; [right; exact H1|]. auto.
Qed.
Lemma del_range_rcar : forall r f l tag x, wf_rep r -> (forall x tag, f <= x <= l -> ~ rcar r tag x) ->
  (rcar (fst (rep_del_range r f l)) tag x <-> rcar r tag x).
Proof.
  intros r f l tag x Hwf Hno. unfold rep_del_range. destruct (N.ltb f l); [|tauto].
  destruct (memb pair_eqb (f, l) (rep_ranges r)); [|tauto].
  pose proof (del_range_loop_lk (nrange f l) r [x] Hwf) as H. destruct (del_range_loop r (nrange f l)) as [r' y].
  assert (G : rcar r' tag x <-> rcar r tag x).
  { cbn [fst] in H. unfold rcar. destruct H as [H|[z [H1 [H2 H3]]]]; [rewrite H; tauto|].
    injection H2 as H2. subst z. apply nrange_In in H1. split; intro Hc.
    - destruct Hc as [ch [Hc _]]. congruence.
    - exfalso. apply (Hno x tag H1). exact Hc. }
  destruct y; exact G.
Qed.

(** ** Each operation *)
Lemma tagP_copy : forall ch y k, tagP ch -> tagP (mkChar [y] k (ch_comment ch) (ch_refs ch) (ch_tags ch) (ch_when ch) (ch_not_when ch) []).
Proof. intros ch y k [H _]. split; [exact H|]. cbn. lia. Qed.
Lemma tagP_delv : forall ch ch' v w nw b, wf_char ch -> tagP ch -> char_del_variant ch v w nw = Ok (ch', b) -> tagP ch'.
Proof.
  intros ch ch' v w nw b _ [H1 H2] H. destruct (char_del_variant_rest _ _ _ _ _ _ H) as [_ [E1 [E2 _]]]. unfold tagP. rewrite E1, E2. auto.
Qed.
Lemma tagP_addv : forall ch ch' v, wf_char ch -> tagP ch -> True -> char_add_variant ch v = Ok ch' -> tagP ch'.
Proof.
  intros ch ch' v _ [H1 H2] _ H. destruct (char_add_variant_rest _ _ _ H) as [_ [E1 [E2 _]]]. unfold tagP. rewrite E1, E2. auto.
Qed.
Lemma tagP_step : forall g o, wf_rep (lg_rep g) -> allch tagP (lg_rep g) -> tag_tidy_op g o -> allch tagP (lg_rep (fst (lgr_step g o))).
Proof.
  intros g o Hwf Ha [_ Ho].
  destruct o as [c cm rf tg w nw vr ov fo|c|f l cm rf tg w nw vr ov fo|f l|f l| |c v ty w nw cm rf vr ov fo|c v w nw|l cm rf tg|v c id|ref|t|].
  11: { unfold lgr_step, lgr_del_reference. destruct (rm_del _ ref). cbn. unfold rep_del_reference. 
        eapply allch_map; [reflexivity|exact Hwf| |exact Ha]. intros ch _ H. exact H. }
  11: { unfold lgr_step, lgr_del_tag. cbn. unfold rep_del_tag. eapply allch_map; [reflexivity|exact Hwf| |exact Ha].
        intros ch _ [H1 H2]. split; cbn [char_del_tag ch_tags ch_cp]; [apply remove1_NoDup; exact H1|]. intro H. rewrite (H2 H). reflexivity. }
  all: apply (allch_step tagP tagP_copy tagP_delv (fun c rf tg => NoDup tg /\ ((1 < length c)%nat -> tg = []))) with (okv := fun _ => True);
    [intros; assumption|exact tagP_addv|exact Hwf|exact Ha|]; cbn [op_ok]; auto.
  - intro H. destruct fo; [auto|]. destruct (H eq_refl) as [_ H']. exact H'.
  - intros H y. split; [|cbn; lia]. destruct fo; [auto|]. apply H. reflexivity.
  - intros H1 H2 y. split; [exact H2|]. cbn. lia.
Qed.

Definition mirror (g : lgr) : Prop := NoDup (dkeys (lg_tags g)) /\ forall tag x, tin (lg_tags g) tag x <-> rcar (lg_rep g) tag x.

Lemma mirror_same : forall g g', mirror g -> lg_tags g' = lg_tags g -> same_tags (lg_rep g) (lg_rep g') -> mirror g'.
Proof. intros g g' [H1 H2] E H. split; rewrite E; [exact H1|]. intros tag x. rewrite H2. symmetry. apply same_tags_rcar. exact H. Qed.

Lemma mirror_add_cp : forall g c cm rf tg w nw vr ov fo, mirror g ->
  (fo = true -> (1 < length c)%nat -> tg = []) ->
  mirror (fst (lgr_add_cp g c cm rf tg w nw vr ov fo)).
Proof.
  intros g c cm rf tg w nw vr ov fo [H1 H2] Hs. destruct (add_cp_unfold g c cm rf tg w nw vr ov fo) as [r [Hf H]]. rewrite H.
  destruct r as [e|]; [split; assumption|]. cbn [fst].
  assert (Hne : c <> []) by (intro; subst; cbn [first_failing add_cp_checks] in Hf; destruct Hf as [[e [_ Hf]]|[Hf _]]; [discriminate|]; eapply Hf; split; reflexivity).
  assert (Htg : (1 < length c)%nat -> tg = []).
  { destruct fo; [auto|]. destruct (ff_tail_dup _ _ _ _ _ _ _ _ _ Hf eq_refl) as [_ [_ Hx]]. exact Hx. }
  assert (Hnp : lk (lg_rep g) c = None).
  { clear -Hf. unfold add_cp_checks in Hf. cbn [first_failing] in Hf. do 8 (destruct Hf as [[e [_ Hf]]|[_ Hf]]; [discriminate|]).
    destruct Hf as [[e [_ Hf]]|[Hf _]]; [discriminate|]. destruct (lk (lg_rep g) c) eqn:E; auto. exfalso. eapply Hf. split; [|reflexivity].
    unfold present. rewrite lookup_lk. congruence. }
  split; cbn [add_cp_to_tag_classes set_tags set_rep lg_tags lg_rep]; [apply add_keys; exact H1|].
  intros tag x. rewrite tin_add, H2. unfold rcar.
  rewrite (lk_ins (lg_rep g) (mkChar c (kind_of c) cm (kept_refs g rf) tg w nw [])) by (cbn [ch_cp]; auto). cbn [ch_cp].
  destruct (cps_eqb [x] c) eqn:E.
  - apply cps_eqb_eq in E. subst c. rewrite Hnp. split.
    + intros [[ch [Hc _]]|[Ha _]]; [discriminate|]. eexists. split; [reflexivity|]. exact Ha.
    + intros [ch [Hc Ha]]. injection Hc as Hc. subst ch. cbn [ch_tags] in Ha. right. split; [exact Ha|left; reflexivity].
  - split; [|auto]. intros [Ha|[Ha Hb]]; [exact Ha|]. exfalso. destruct c as [|y [|z c]]; [contradiction| |].
    + destruct Hb as [Hb|[]]. subst y. rewrite cps_eqb_refl in E. discriminate.
    + rewrite Htg in Ha by (cbn; lia). contradiction.
Qed.

Lemma mirror_add_range : forall g f l cm rf tg w nw vr ov fo g', wf_rep (lg_rep g) -> mirror g ->
  lgr_add_range g f l cm rf tg w nw vr ov fo = (g', Ok tt) -> mirror g'.
Proof.
  intros g f l cm rf tg w nw vr ov fo g' Hwf [H1 H2] He. destruct (add_range_unfold g f l cm rf tg w nw vr ov fo) as [r [_ H]].
  destruct r as [e|]; [congruence|]. destruct H as [ks [rs [Hs [_ [Hex [Hf Heq]]]]]]. rewrite Heq in He.
  destruct (insert_ranges (lg_rep g) cm (kept_refs g rf) tg w nw rs) as [r' [u|e]] eqn:Ei; [|discriminate]. injection He as He. subst g'.
  apply insert_ranges_spec in Ei; auto; [|rewrite Hex; apply sorted_NoDup; exact Hs].
  destruct Ei as [[_ [Hab [Hl _]]]|[pre [z [post [_ [Hx _]]]]]]; [|discriminate]. rewrite Hex in *.
  destruct (fold_tags_classes tg ks (set_rep g r')) as [F1 F2]. split; [apply F2; exact H1|].
  intros tag x. rewrite F1, fold_tags_rep. cbn [set_rep lg_tags lg_rep]. rewrite H2. unfold rcar. rewrite Hl.
  destruct (memb N.eqb x ks) eqn:E.
  - apply (memb_In _ _ N_eqb_iff) in E. rewrite (Hab x E). split.
    + intros [[ch [Hc _]]|[Ha _]]; [discriminate|]. eexists. split; [reflexivity|]. exact Ha.
    + intros [ch [Hc Ha]]. injection Hc as Hc. subst ch. right. split; [exact Ha|exact E].
  - assert (~ In x ks) by (intro Hi; apply (memb_In _ _ N_eqb_iff) in Hi; congruence). tauto.
Qed.

Lemma mirror_add_collapsed : forall l g cm rf tg g', wf_rep (lg_rep g) -> mirror g ->
  add_collapsed g cm rf tg l = (g', Ok tt) -> mirror g'.
Proof.
  induction l as [|[f la] l IH]; intros g cm rf tg g' Hwf Hm He; cbn [add_collapsed] in He; [injection He as He; subst; exact Hm|].
  destruct (N.eqb f la).
  - pose proof (mirror_add_cp g [f] cm rf tg None None None false false Hm ltac:(discriminate)) as H.
    pose proof (rsteps_lgr_add_cp g [f] cm rf tg None None None false false) as Hs.
    destruct (lgr_add_cp g [f] cm rf tg None None None false false) as [g1 [u|e]]; cbn [fst] in *; [|discriminate].
    eapply IH; [eapply rsteps_wf; eauto|exact H|exact He].
  - pose proof (rsteps_lgr_add_range g f la cm rf tg None None None false false) as Hs.
    destruct (lgr_add_range g f la cm rf tg None None None false false) as [g1 [[]|e]] eqn:Er; cbn [fst] in *; [|discriminate].
    eapply IH; [eapply rsteps_wf; eauto|eapply mirror_add_range; [exact Hwf|exact Hm|exact Er]|exact He].
Qed.

Lemma expand_range_same_tags : forall g f l, wf_rep (lg_rep g) -> rinv (lg_rep g) ->
  same_tags (lg_rep g) (lg_rep (fst (lgr_expand_range g f l))) /\ lg_tags (fst (lgr_expand_range g f l)) = lg_tags g.
Proof.
  intros g f l Hwf Hr. destruct (expand_range_rinv g f l Hwf Hr) as [[e H]|[r' [H [_ [_ [Hl _]]]]]]; rewrite H; cbn [fst].
  - split; [apply same_tags_refl|reflexivity].
  - split; [|reflexivity]. intro x. cbn [set_rep lg_rep]. rewrite Hl. destruct (N.leb f x && N.leb x l)%bool; [|reflexivity].
    destruct (lk (lg_rep g) [x]); reflexivity.
Qed.
Lemma expand_loop_same_tags : forall l g, wf_rep (lg_rep g) -> rinv (lg_rep g) ->
  same_tags (lg_rep g) (lg_rep (fst (expand_loop g l))) /\ lg_tags (fst (expand_loop g l)) = lg_tags g.
Proof.
  induction l as [|[f la] l IH]; intros g Hwf Hr; cbn [expand_loop]; [split; [apply same_tags_refl|reflexivity]|].
  pose proof (expand_range_any_rinv g f la Hwf Hr) as H. pose proof (rsteps_expand g f la) as Hs.
  pose proof (expand_range_same_tags g f la Hwf Hr) as [H1 H2].
  destruct (lgr_expand_range g f la) as [g1 [u|e]]; cbn [fst] in *; [|auto].
  destruct (IH g1 (rsteps_wf _ _ Hwf Hs) H) as [H3 H4]. split; [eapply same_tags_trans; eauto|congruence].
Qed.

Lemma mirror_step : forall g o, wf_rep (lg_rep g) -> rinv (lg_rep g) -> allch tagP (lg_rep g) -> mirror g ->
  tag_tidy_op g o -> mirror (fst (lgr_step g o)).
Proof.
  intros g o Hwf Hr Ha Hm [Hto Ho].
  destruct o as [c cm rf tg w nw vr ov fo|c|f l cm rf tg w nw vr ov fo|f l|f l| |c v ty w nw cm rf vr ov fo|c v w nw|l cm rf tg|v c id|ref|t|];
    unfold lgr_step; cbn [tidy_op lgr_step] in Hto.
  - pose proof (mirror_add_cp g c cm rf tg w nw vr ov fo Hm (fun H => proj2 (Ho H))) as H. destruct (lgr_add_cp _ _ _ _ _ _ _ _ _ _). exact H.
  - unfold lgr_del_cp. destruct (check_convert g c) as [c1|e] eqn:Ec; [|exact Hm]. apply check_convert_id in Ec. destruct Ec as [Ec Hne]. subst c1.
    rewrite get_char_lk by exact Hne. destruct (lk (lg_rep g) c) as [ch|] eqn:E; [|exact Hm].
    unfold rep_del_char. destruct c as [|x0 c]; [contradiction|]. rewrite del_char_unfold, E. cbn [fst].
    destruct Hm as [H1 H2]. split; cbn [del_cp_from_tag_classes set_tags set_rep lg_tags lg_rep]; [apply del_keys; exact H1|].
    intros tag x. rewrite tin_del, H2. unfold rcar. rewrite lk_del by exact Hwf. destruct (cps_eqb [x] (x0 :: c)) eqn:Ex.
    + apply cps_eqb_eq in Ex. injection Ex as Ex1 Ex2. subst x0 c. rewrite E. split.
      * intros [[c2 [Hc2 Ht]] Hn]. exfalso. injection Hc2 as Hc2. subst c2. apply Hn. split; [exact Ht|left; reflexivity].
      * intros [c2 [Hc2 _]]. discriminate.
    + split; [tauto|]. intro H. split; [exact H|]. intros [Ht Hx]. destruct c as [|y c].
      * destruct Hx as [Hx|[]]. subst x0. rewrite cps_eqb_refl in Ex. discriminate.
      * destruct (Ha _ _ E) as [_ Hl]. rewrite (lk_cp _ _ _ E) in Hl. rewrite Hl in Ht by (cbn; lia). contradiction.
  - pose proof (mirror_add_range g f l cm rf tg w nw vr ov fo) as H. unfold lgr_step in Hto.
    destruct (lgr_add_range g f l cm rf tg w nw vr ov fo) as [g' [[]|e]]; cbn [fst snd lout] in *; [eapply H; eauto|].
    destruct Hto as [Hto|Hto]; [discriminate|]. rewrite Hto. exact Hm.
  - unfold lgr_del_range. destruct (N.ltb l f); [exact Hm|].
    assert (Hno : forall x tag, f <= x <= l -> ~ rcar (lg_rep g) tag x) by (intros x tag Hx; rewrite <- carries_rcar; auto).
    pose proof (fun tag x => del_range_rcar (lg_rep g) f l tag x Hwf Hno) as H. destruct (rep_del_range (lg_rep g) f l) as [r y]. cbn [fst] in *.
    destruct Hm as [H1 H2]. split; [exact H1|]. intros tag x. cbn [set_rep lg_tags lg_rep]. rewrite H2, H. tauto.
  - pose proof (expand_range_same_tags g f l Hwf Hr) as [H1 H2]. destruct (lgr_expand_range g f l). cbn [fst] in *. eapply mirror_same; eauto.
  - unfold lgr_expand_ranges. pose proof (expand_loop_same_tags (rep_ranges (lg_rep g)) g Hwf Hr) as [H1 H2].
    destruct (expand_loop g (rep_ranges (lg_rep g))). cbn [fst] in *. eapply mirror_same; eauto.
  - unfold lgr_add_variant. destruct (check_convert g c) as [c1|e] eqn:Ec; [|exact Hm]. cbn [bind].
    destruct (check_convert g v) as [v1|e] eqn:Ev; [|exact Hm]. cbn [bind].
    destruct (_ && is_some nw)%bool; [exact Hm|]. destruct (check_validating vr ov fo c1 v1); [|exact Hm].
    destruct (collect_refs (lg_refs g) fo rf) as [rs|e]; [|exact Hm]. destruct (has_dup rs && negb fo)%bool; [exact Hm|].
    apply check_convert_id in Ec. destruct Ec as [Ec Hne]. subst c1.
    unfold rep_add_variant. destruct c as [|x t]; [contradiction|]. rewrite get_char_lk by discriminate.
    destruct (lk (lg_rep g) (x :: t)) as [ch|] eqn:E; [|eapply mirror_same; [exact Hm|reflexivity|apply same_tags_refl]].
    match goal with |- context [char_add_variant ch ?vv] => destruct (char_add_variant ch vv) as [ch'|e] eqn:Eva end;
      (eapply mirror_same; [exact Hm|reflexivity|]); [|apply same_tags_refl].
    destruct (char_add_variant_rest _ _ _ Eva) as [_ [T1 [T2 _]]]. eapply same_tags_put; eauto.
  - unfold lgr_del_variant. destruct (check_convert g c) as [c1|e] eqn:Ec; [|exact Hm]. apply check_convert_id in Ec. destruct Ec as [Ec Hne]. subst c1.
    unfold rep_del_variant. destruct c as [|x t]; [contradiction|]. rewrite get_char_lk by discriminate.
    destruct (lk (lg_rep g) (x :: t)) as [ch|] eqn:E; [|eapply mirror_same; [exact Hm|reflexivity|apply same_tags_refl]].
    destruct (char_del_variant ch v w nw) as [[ch' b]|e] eqn:Ev; [|eapply mirror_same; [exact Hm|reflexivity|apply same_tags_refl]].
    eapply mirror_same; [exact Hm|reflexivity|]. destruct (char_del_variant_rest _ _ _ _ _ _ Ev) as [_ [T1 [T2 _]]]. eapply same_tags_put; eauto.
  - unfold lgr_step, lgr_add_codepoints in *. destruct l as [|x l]; [exact Hm|]. destruct (collapse_codepoints (x :: l)) as [rs|e]; [|exact Hm].
    pose proof (mirror_add_collapsed rs g cm rf tg) as H. destruct (add_collapsed g cm rf tg rs) as [g' [[]|e]]; cbn [fst snd lout] in *; [eapply H; eauto|].
    destruct Hto as [Hto|Hto]; [discriminate|]. rewrite Hto. exact Hm.
  - unfold lgr_add_reference. destruct (rm_add (lg_refs g) v c id). exact Hm.
  - unfold lgr_del_reference. destruct (rm_del _ ref). cbn [fst]. eapply mirror_same; [exact Hm|reflexivity|].
    apply same_tags_map; reflexivity.
  - unfold lgr_del_tag. cbn [fst]. destruct Hm as [H1 H2]. split; cbn [set_tags set_rep lg_tags lg_rep]; [apply ddel_NoDup; exact H1|].
    intros tag x. unfold tin. rewrite (dget_ddel _ string_eqb_iff) by exact H1. unfold rcar, rep_del_tag.
    rewrite lk_map_chars by reflexivity. specialize (H2 tag x). unfold tin, rcar in H2. destruct (String.eqb_spec tag t) as [Et|Et].
    + subst t. split; [intros [s [Hs _]]; discriminate|]. intros [ch [Hc Ht]]. exfalso.
      destruct (lk (lg_rep g) [x]) as [c0|] eqn:E; [|discriminate]. injection Hc as Hc. subst ch. cbn [char_del_tag ch_tags] in Ht.
      destruct (Ha _ _ E) as [Hn _]. eapply (remove1_gone _ _ string_eqb_iff); eauto.
    + rewrite H2. destruct (lk (lg_rep g) [x]) as [c0|]; cbn [option_map].
      * split; intros [ch [Hc Ht]]; injection Hc as Hc; subst ch; eexists; (split; [reflexivity|]); cbn [char_del_tag ch_tags] in *;
          [apply (remove1_other _ _ string_eqb_iff); auto|apply (remove1_other _ _ string_eqb_iff) in Ht; auto].
      * split; intros [ch [Hc _]]; discriminate.
  - exact Hm.
Qed.

Lemma tag_tidy_tidy : forall g, tag_tidy g -> tidy g.
Proof. intros g H. induction H as [db al|g o H IH [Ho _]]; [apply tidy_new|apply tidy_step; auto]. Qed.
Lemma tag_tidy_inv : forall g, tag_tidy g -> allch tagP (lg_rep g) /\ mirror g.
Proof.
  intros g H. induction H as [db al|g o H [IH1 IH2] Ho].
  - split; [apply allch_empty|]. split; [constructor|]. intros tag x. split; [intros [s [Hs _]]; discriminate|intros [ch [Hs _]]; discriminate].
  - assert (Hwf : wf_rep (lg_rep g)) by (apply lgr_reachable_wf, tidy_reachable, tag_tidy_tidy, H).
    assert (Hr : rinv (lg_rep g)) by (apply tidy_rinv, tag_tidy_tidy, H).
    split; [apply tagP_step; auto|apply mirror_step; auto].
Qed.

(** ** C11 *)
Theorem tag_classes_mirror : forall g, tag_tidy g -> forall tag x, in_tag_class g tag x <-> carries g tag x.
Proof. intros g H tag x. destruct (tag_tidy_inv g H) as [_ [_ Hm]]. rewrite carries_rcar. apply Hm. Qed.
