From Coq Require Import Permutation.
From Verif Require Import Base BaseFacts CharModel RepSpec RepProofs RangeProofs VariantProofs IterProofs VarSetProofs UtilsModel RefModel RefSpec RefProofs
  ActionModel LgrModel LgrSpec LgrProofs LgrReach LgrRange LgrInv LgrTags LgrRefs PopulateModel PopulateSpec PopulateProofs MetaModel CompareModel CompareSpec CompareProofs.
Open Scope string_scope.
Open Scope list_scope.

(** ** Unforced edits give orderly LGRs *)
Lemma orderly_copy : forall ch y k, orderly_char ch -> orderly_char (mkChar [y] k (ch_comment ch) (ch_refs ch) (ch_tags ch) (ch_when ch) (ch_not_when ch) []).
Proof. intros ch y k [H1 [H2 [H3 _]]]. split; [exact H1|]. split; [cbn; lia|]. split; [exact H3|]. intros v []. Qed.
Lemma orderly_same : forall ch ch', same_entry ch ch' -> orderly_char ch ->
  (forall v, In v (get_variants ch') -> one_context (v_when v) (v_not_when v)) -> orderly_char ch'.
Proof.
  intros ch ch' [E1 [E2 [E3 [E4 [E5 [E6 E7]]]]]] [H1 [H2 [H3 _]]] Hv. unfold orderly_char.
  rewrite E1, E5, E6, E7. auto.
Qed.
Lemma orderly_delv : forall ch ch' v w nw b, wf_char ch -> orderly_char ch -> char_del_variant ch v w nw = Ok (ch', b) -> orderly_char ch'.
Proof.
  intros ch ch' v w nw b Hwf Hp H. destruct (char_del_variant_rest _ _ _ _ _ _ H) as [_ [_ [_ [Hr Hne]]]].
  apply (orderly_same ch ch'); [eapply del_variant_same; exact H|exact Hp|].
  destruct (del_variant_cases ch v w nw Hwf Hr Hne) as [c2 [b2 [E2 [_ [_ E3]]]]]. rewrite H in E2. injection E2 as E2 E4. subst c2 b2.
  intros u Hu. apply E3 in Hu. destruct Hp as [_ [_ [_ Hp]]]. apply Hp. tauto.
Qed.
Lemma orderly_addv : forall ch ch' v, wf_char ch -> orderly_char ch -> one_context (v_when v) (v_not_when v) ->
  char_add_variant ch v = Ok ch' -> orderly_char ch'.
Proof.
  intros ch ch' v Hwf Hp Hv H. destruct (char_add_variant_rest _ _ _ H) as [_ [_ [_ [Hr Hne]]]].
  apply (orderly_same ch ch'); [eapply add_variant_same; exact H|exact Hp|].
  destruct (add_variant_cases ch v Hwf Hr Hne) as [[_ E]|[_ [c2 [E2 E3]]]]; [congruence|].
  rewrite H in E2. injection E2 as E2. subst c2. intros u Hu. apply E3 in Hu. destruct Hu as [Hu|Hu]; [subst; exact Hv|].
  destruct Hp as [_ [_ [_ Hp]]]. apply Hp. exact Hu.
Qed.
Lemma one_context_dec : forall w nw, one_context w nw \/ (w <> None /\ nw <> None).
Proof. intros [w|] [nw|]; [right; split; discriminate|left; right|left; left|left; left]; reflexivity. Qed.

Lemma orderly_step : forall g op, wf_rep (lg_rep g) -> allch orderly_char (lg_rep g) -> unforced op -> allch orderly_char (lg_rep (fst (lgr_step g op))).
Proof.
  intros g op Hwf Ha Hu.
  destruct op as [c cm rf tg w nw vr ov fo|c|f l cm rf tg w nw vr ov fo|f l|f l| |c v ty w nw cm rf vr ov fo|c v w nw|l cm rf tg|v c id|ref|t|];
    cbn [unforced] in Hu.
  - subst fo. destruct (one_context_dec w nw) as [Hx|[Hx1 Hx2]].
    + pose proof (allch_lgr_add_cp orderly_char g c cm rf tg w nw vr ov false Ha) as H. unfold lgr_step.
      destruct (lgr_add_cp g c cm rf tg w nw vr ov false) as [g' x]. cbn [fst] in *. apply H. intros Hd k. destruct (Hd eq_refl) as [D1 [D2 D3]].
      split; [exact D2|]. split; [exact D3|]. split; [exact Hx|intros ? []].
    + unfold lgr_step. destruct (add_cp_spec g c cm rf tg w nw vr ov false) as [r [H1 H2]].
      destruct (lgr_add_cp g c cm rf tg w nw vr ov false) as [g' x]. cbn [fst]. destruct r as [e|]; [destruct H2; subst; exact Ha|].
      exfalso. unfold add_cp_checks in H1. cbn [first_failing] in H1.
      do 2 (destruct H1 as [[e [_ H1]]|[_ H1]]; [discriminate|]).
      destruct H1 as [[e [_ H1]]|[H1 _]]; [discriminate|]. eapply H1. split; [reflexivity|]. split; [exact Hx1|]. split; [exact Hx2|reflexivity].
  - apply (allch_step orderly_char orderly_copy orderly_delv (fun _ _ _ => False)) with (okv := fun _ => False); auto; try (intros; contradiction); exact I.
  - subst fo. destruct (one_context_dec w nw) as [Hx|[Hx1 Hx2]].
    + pose proof (allch_lgr_add_range orderly_char g f l cm rf tg w nw vr ov false Hwf Ha) as H. unfold lgr_step.
      destruct (lgr_add_range g f l cm rf tg w nw vr ov false) as [g' x]. cbn [fst] in *. apply H. intros Hd y k. destruct (Hd eq_refl) as [D1 D2].
      split; [exact D2|]. split; [cbn; lia|]. split; [exact Hx|intros ? []].
    + unfold lgr_step. destruct (add_range_unfold g f l cm rf tg w nw vr ov false) as [r [H1 H2]].
      destruct r as [e|]; [rewrite H2; exact Ha|].
      exfalso. unfold add_range_checks in H1. cbn [first_failing] in H1.
      destruct H1 as [[e [_ H1]]|[_ H1]]; [discriminate|].
      destruct H1 as [[e [_ H1]]|[H1 _]]; [discriminate|]. eapply H1. split; [reflexivity|]. split; [exact Hx1|]. split; [exact Hx2|reflexivity].
  - apply (allch_step orderly_char orderly_copy orderly_delv (fun _ _ _ => False)) with (okv := fun _ => False); auto; try (intros; contradiction); exact I.
  - apply (allch_step orderly_char orderly_copy orderly_delv (fun _ _ _ => False)) with (okv := fun _ => False); auto; try (intros; contradiction); exact I.
  - apply (allch_step orderly_char orderly_copy orderly_delv (fun _ _ _ => False)) with (okv := fun _ => False); auto; try (intros; contradiction); exact I.
  - subst fo. unfold lgr_step, lgr_add_variant. destruct (check_convert g c) as [c1|e]; [|exact Ha]. cbn [bind].
    destruct (check_convert g v) as [v1|e]; [|exact Ha]. cbn [bind negb andb].
    destruct (is_some w && is_some nw)%bool eqn:Ex; [exact Ha|].
    assert (Hx : one_context w nw) by (destruct w, nw; try discriminate; [right|left|left]; reflexivity).
    destruct (check_validating vr ov false c1 v1); [|exact Ha]. destruct (collect_refs _ false rf) as [rs|e]; [|exact Ha].
    destruct (has_dup rs && _)%bool; [exact Ha|].
    pose proof (allch_add_variant orderly_char (lg_rep g) c1 (mkVariant v1 ty w nw cm rs) Hwf Ha
      (fun ch ch' W1 W2 => orderly_addv ch ch' (mkVariant v1 ty w nw cm rs) W1 W2 Hx)) as H.
    destruct (rep_add_variant _ _ _) as [r [u|e]]; exact H.
  - apply (allch_step orderly_char orderly_copy orderly_delv (fun _ _ _ => False)) with (okv := fun _ => False); auto; try (intros; contradiction); exact I.
  - unfold lgr_step, lgr_add_codepoints. destruct l as [|x l]; [exact Ha|]. destruct (collapse_codepoints (x :: l)) as [rs|e]; [|exact Ha].
    pose proof (allch_add_collapsed orderly_char rs g cm rf tg Hwf Ha) as H. destruct (add_collapsed g cm rf tg rs) as [g' r]. cbn [fst] in *. apply H.
    intros _ D y k. split; [exact D|]. split; [cbn; lia|]. split; [left; reflexivity|intros ? []].
  - unfold lgr_step, lgr_add_reference. destruct (rm_add (lg_refs g) v c id). exact Ha.
  - unfold lgr_step, lgr_del_reference. destruct (rm_del _ ref) as [m x]. cbn [fst set_refs set_rep lg_rep].
    unfold rep_del_reference. eapply allch_map; [reflexivity|exact Hwf| |exact Ha]. intros ch W [P1 [P2 [P3 P4]]].
    split; [exact P1|]. split; [exact P2|]. split; [exact P3|]. intros u Hq. apply get_variants_del_ref in Hq; [|exact W].
    destruct Hq as [z [Hz1 Hz2]]. subst u. apply (P4 z Hz1).
  - unfold lgr_step, lgr_del_tag. cbn [fst set_tags set_rep lg_rep]. unfold rep_del_tag.
    eapply allch_map; [reflexivity|exact Hwf| |exact Ha]. intros ch W [P1 [P2 [P3 P4]]].
    split; [|split; [|split; [exact P3|exact P4]]].
    + cbn. apply remove1_NoDup. exact P1.
    + cbn [char_del_tag ch_cp ch_tags]. intro Hl. rewrite (P2 Hl). reflexivity.
  - exact Ha.
Qed.
Theorem unforced_orderly : forall db allow ops, (forall x, In x ops -> unforced x) -> orderly (fst (lgr_run (new_lgr db allow) ops)).
Proof.
  intros db allow ops Hu.
  assert (G : forall ops g, (forall x, In x ops -> unforced x) -> wf_rep (lg_rep g) -> allch orderly_char (lg_rep g) -> allch orderly_char (lg_rep (fst (lgr_run g ops)))).
  { clear. induction ops as [|x ops IH]; intros g Hu Hwf Ha; [exact Ha|]. cbn [lgr_run].
    pose proof (orderly_step g x Hwf Ha (Hu x (or_introl eq_refl))) as H1. pose proof (lgr_step_rsteps g x) as Hs.
    destruct (lgr_step g x) as [g1 y]. cbn [fst] in *.
    specialize (IH g1 (fun z Hz => Hu z (or_intror Hz)) (rsteps_wf _ _ Hwf Hs) H1). destruct (lgr_run g1 ops). exact IH. }
  intros c ch H. rewrite lookup_lk in H. revert H. apply (G ops); [exact Hu|apply wf_empty|apply allch_empty].
Qed.

(** ** Actions *)
Lemma subset_b_spec : forall a b, subset_b a b = true <-> (forall x, In x a -> In x b).
Proof.
  intros a b. unfold subset_b. rewrite forallb_forall. split; intros H x Hx; specialize (H x Hx); apply (memb_In _ _ string_eqb_iff); exact H.
Qed.
Lemma types_eqb_spec : forall a b, types_eqb a b = true <-> same_types a b.
Proof.
  intros [a|] [b|]; cbn [types_eqb same_types]; try (split; intro H; [discriminate|contradiction]); [|tauto].
  rewrite andb_true_iff, !subset_b_spec. split.
  - intros [H1 H2] t. split; auto.
  - intro H. split; intros x Hx; apply H; exact Hx.
Qed.
Lemma action_eqb_spec : forall a b, action_eqb a b = true <-> same_action a b.
Proof.
  intros a b. unfold action_eqb, same_action. rewrite !andb_true_iff, String.eqb_eq, !ostring_eqb_eq, !types_eqb_spec. tauto.
Qed.
Lemma in_types_same : forall a b d, (forall t, In t a <-> In t b) -> in_types a d = in_types b d.
Proof.
  intros a b [s|] H; [|reflexivity]. cbn. destruct (memb String.eqb s a) eqn:E1, (memb String.eqb s b) eqn:E2; auto.
  - apply (memb_In _ _ string_eqb_iff) in E1. apply H in E1. apply (memb_In _ _ string_eqb_iff) in E1. congruence.
  - apply (memb_In _ _ string_eqb_iff) in E2. apply H in E2. apply (memb_In _ _ string_eqb_iff) in E2. congruence.
Qed.
Lemma existsb_ext' : forall A (f g : A -> bool) l, (forall x, f x = g x) -> existsb f l = existsb g l.
Proof. intros A f g l H. induction l; cbn; [reflexivity|]. rewrite H, IHl. reflexivity. Qed.
Lemma forallb_ext' : forall A (f g : A -> bool) l, (forall x, f x = g x) -> forallb f l = forallb g l.
Proof. intros A f g l H. induction l; cbn; [reflexivity|]. rewrite H, IHl. reflexivity. Qed.
Lemma same_action_apply : forall rm a b label ds only, same_action a b -> act_apply rm a label ds only = act_apply rm b label ds only.
Proof.
  intros rm a b label ds only [H1 [H2 [H3 [H4 [H5 H6]]]]]. unfold act_apply, act_rule, act_variant. rewrite H1, H2, H3.
  replace (match a_any a with Some l => existsb (in_types l) ds | None => match a_all a with Some l => negb match ds with [] => true | _ :: _ => false end && forallb (in_types l) ds | None => match a_only a with Some l => only && negb match ds with [] => true | _ :: _ => false end && forallb (in_types l) ds | None => true end end end)
    with (match a_any b with Some l => existsb (in_types l) ds | None => match a_all b with Some l => negb match ds with [] => true | _ :: _ => false end && forallb (in_types l) ds | None => match a_only b with Some l => only && negb match ds with [] => true | _ :: _ => false end && forallb (in_types l) ds | None => true end end end);
    [reflexivity|].
  destruct (a_any a) as [x|], (a_any b) as [y|]; cbn in H4; try contradiction.
  { apply existsb_ext'. intro d. symmetry. apply in_types_same. exact H4. }
  destruct (a_all a) as [x|], (a_all b) as [y|]; cbn in H5; try contradiction.
  { f_equal. apply forallb_ext'. intro d. symmetry. apply in_types_same. exact H5. }
  destruct (a_only a) as [x|], (a_only b) as [y|]; cbn in H6; try contradiction; [|reflexivity].
  f_equal. apply forallb_ext'. intro d. symmetry. apply in_types_same. exact H6.
Qed.
Lemma verdict_dedup_aux : forall rm label ds only l seen, (forall a, In a seen -> act_apply rm a label ds only = None) ->
  verdict rm (dedup_aux action_eqb seen l) label ds only = verdict rm l label ds only.
Proof.
  intros rm label ds only. induction l as [|a l IH]; intros seen Hs; [reflexivity|]. cbn [dedup_aux verdict].
  destruct (memb action_eqb a seen) eqn:E.
  - unfold memb in E. apply existsb_exists in E. destruct E as [b [E1 E2]]. apply action_eqb_spec in E2.
    rewrite (same_action_apply _ _ _ _ _ _ E2), (Hs b E1). apply IH. exact Hs.
  - cbn [verdict]. destruct (act_apply rm a label ds only) eqn:Ea; [reflexivity|]. apply IH.
    intros b [Hb|Hb]; [subst; exact Ea|auto].
Qed.
Lemma apply_verdict : forall rm l i label ds only, fst (apply_actions_from rm l i label ds only) = verdict rm l label ds only.
Proof.
  intros rm. induction l as [|a l IH]; intros i label ds only; [reflexivity|]. cbn [apply_actions_from verdict].
  destruct (act_apply rm a label ds only); [reflexivity|apply IH].
Qed.
Lemma verdict_app : forall rm a b label ds only, verdict rm (a ++ b) label ds only =
  match verdict rm a label ds only with Some d => Some d | None => verdict rm b label ds only end.
Proof.
  intros rm a b label ds only. induction a as [|x a IH]; [reflexivity|]. cbn [app verdict]. destruct (act_apply rm x label ds only); auto.
Qed.
Lemma union_actions_verdict : forall rm a b label ds only,
  fst (apply_actions rm (dedup action_eqb (a ++ b)) label ds only) = fst (apply_actions rm (a ++ b) label ds only).
Proof.
  intros. unfold apply_actions, effective_actions. rewrite !apply_verdict, !verdict_app. unfold dedup.
  rewrite verdict_dedup_aux by (intros ? []). rewrite verdict_app. reflexivity.
Qed.
Lemma memb_action : forall a l, memb action_eqb a l = true <-> exists b, In b l /\ same_action a b.
Proof.
  intros a l. unfold memb. rewrite existsb_exists. split; intros [b [H1 H2]]; exists b; split; auto; apply action_eqb_spec; exact H2.
Qed.
Lemma same_types_refl : forall a, same_types a a.
Proof. intros [a|]; cbn; tauto. Qed.
Lemma same_action_refl : forall a, same_action a a.
Proof. intro a. unfold same_action. auto 10 using same_types_refl. Qed.
Lemma same_types_sym : forall a b, same_types a b -> same_types b a.
Proof. intros [a|] [b|]; cbn; auto. intros H t. symmetry. apply H. Qed.
Lemma same_types_trans : forall a b c, same_types a b -> same_types b c -> same_types a c.
Proof. intros [a|] [b|] [c|]; cbn; auto; try contradiction. intros H1 H2 t. rewrite H1. apply H2. Qed.
Lemma same_action_sym : forall a b, same_action a b -> same_action b a.
Proof. intros a b [H1 [H2 [H3 [H4 [H5 H6]]]]]. unfold same_action. auto 10 using same_types_sym. Qed.
Lemma same_action_trans : forall a b c, same_action a b -> same_action b c -> same_action a c.
Proof.
  intros a b c [A1 [A2 [A3 [A4 [A5 A6]]]]] [B1 [B2 [B3 [B4 [B5 B6]]]]]. unfold same_action.
  split; [congruence|]. split; [congruence|]. split; [congruence|]. eauto 10 using same_types_trans.
Qed.
Lemma dedup_actions_aux : forall l seen,
  (forall a, In a (dedup_aux action_eqb seen l) -> In a l) /\
  (forall a, In a l -> exists b, same_action a b /\ (In b seen \/ In b (dedup_aux action_eqb seen l))).
Proof.
  induction l as [|x l IH]; intro seen; [split; [intros ? []|intros ? []]|]. cbn [dedup_aux].
  destruct (memb action_eqb x seen) eqn:E.
  - destruct (IH seen) as [H1 H2]. split; [intros a Ha; right; auto|]. intros a [Ha|Ha]; [|apply H2; exact Ha].
    subst. apply memb_action in E. destruct E as [b [Hb1 Hb2]]. exists b. auto.
  - destruct (IH (x :: seen)) as [H1 H2]. split.
    + intros a [Ha|Ha]; [left; auto|right; auto].
    + intros a [Ha|Ha]; [subst; exists a; split; [apply same_action_refl|right; left; auto]|].
      destruct (H2 a Ha) as [b [Hb [[Hc|Hc]|Hc]]]; exists b; (split; [exact Hb|]); [right; left|left|right; right]; auto.
Qed.
Lemma dedup_actions : forall l,
  (forall a, In a (dedup action_eqb l) -> In a l) /\ (forall a, In a l -> exists b, same_action a b /\ In b (dedup action_eqb l)).
Proof.
  intro l. destruct (dedup_actions_aux l []) as [H1 H2]. split; [exact H1|]. intros a Ha. destruct (H2 a Ha) as [b [Hb [[]|Hc]]]. eauto.
Qed.

(** ** Names and their texts *)
Lemma xml_of_index : forall A (eqb : A -> A -> bool) l xs x, length l = length xs -> (exists y, In y l /\ eqb x y = true) ->
  exists t, xml_of eqb l xs x = Ok t.
Proof.
  intros A eqb l xs x Hl Hx. unfold xml_of.
  assert (G : exists i, index_of eqb x l = Some i /\ (i < length l)%nat).
  { clear Hl xs. induction l as [|y l IH]; [destruct Hx as [? [[] _]]|]. cbn [index_of]. destruct (eqb x y) eqn:E.
    - exists O. split; [reflexivity|cbn; lia].
    - destruct IH as [i [H1 H2]]; [destruct Hx as [z [[Hz|Hz] Hz2]]; [subst; congruence|exists z; auto]|].
      exists (S i). rewrite H1. split; [reflexivity|cbn; lia]. }
  destruct G as [i [G1 G2]]. rewrite G1. destruct (nth_error xs i) as [t|] eqn:E; [exists t; reflexivity|].
  apply nth_error_None in E. lia.
Qed.
Lemma xml_of_text : forall ns xs n, length ns = length xs -> In n ns ->
  exists t, xml_of String.eqb ns xs n = Ok t /\ text_of ns xs n = Some t.
Proof.
  intros ns xs n Hl Hn. destruct (xml_of_index _ String.eqb ns xs n Hl) as [t Ht]; [exists n; split; [exact Hn|apply String.eqb_refl]|].
  exists t. split; [exact Ht|]. unfold xml_of in Ht.
  revert xs Hl Ht. induction ns as [|m ns IH]; intros xs Hl Ht; [destruct Hn|]. destruct xs as [|x xs]; [discriminate|].
  cbn [index_of] in Ht. cbn [text_of]. rewrite String.eqb_sym. destruct (String.eqb n m) eqn:E; [cbn in Ht; congruence|].
  apply IH; [destruct Hn as [Hn|Hn]; [subst; rewrite String.eqb_refl in E; discriminate|exact Hn]|cbn in Hl; lia|].
  destruct (index_of String.eqb n ns) as [i|]; [exact Ht|discriminate Ht].
Qed.
Lemma text_of_None : forall ns xs n, ~ In n ns -> text_of ns xs n = None.
Proof.
  induction ns as [|m ns IH]; intros xs n Hn; [reflexivity|]. cbn [text_of]. destruct xs as [|x xs]; [reflexivity|].
  destruct (String.eqb m n) eqn:E; [apply String.eqb_eq in E; subst; exfalso; apply Hn; left; reflexivity|].
  apply IH. intro H. apply Hn. right. exact H.
Qed.
Lemma text_of_In : forall ns xs n t, text_of ns xs n = Some t -> In n ns.
Proof.
  induction ns as [|m ns IH]; intros xs n t H; [discriminate|]. cbn [text_of] in H. destruct xs as [|x xs]; [discriminate|].
  destruct (String.eqb m n) eqn:E; [apply String.eqb_eq in E; left; exact E|]. right. eapply IH. exact H.
Qed.

(** What becomes of a name defined in both. *)
Definition shared (n1 x1 n2 x2 : list string) (n m x : string) : Prop :=
  exists a b, text_of n1 x1 n = Some a /\ text_of n2 x2 n = Some b /\
    ((a = b /\ m = n /\ x = a) \/
     (a <> b /\ ((m = (n ++ "_1")%string /\ x = str_replace a n (n ++ "_1")%string) \/
                 (m = (n ++ "_2")%string /\ x = str_replace b n (n ++ "_2")%string)))).
Lemma common_names_ok : forall n1 x1 n2 x2 l, length n1 = length x1 -> length n2 = length x2 ->
  (forall n, In n l -> In n n1 /\ In n n2) ->
  exists ns xs, common_names n1 x1 n2 x2 l = Ok (ns, xs) /\ length ns = length xs /\
    forall m x, In (m, x) (combine ns xs) <-> exists n, In n l /\ shared n1 x1 n2 x2 n m x.
Proof.
  intros n1 x1 n2 x2 l L1 L2. induction l as [|n l IH]; intro Hi.
  - exists [], []. split; [reflexivity|]. split; [reflexivity|]. intros m x. split; [intros []|intros [n [[] _]]].
  - destruct IH as [ns [xs [H1 [H2 H3]]]]; [intros k Hk; apply Hi; right; exact Hk|].
    destruct (Hi n (or_introl eq_refl)) as [I1 I2].
    destruct (xml_of_text n1 x1 n L1 I1) as [a [Ha1 Ha2]]. destruct (xml_of_text n2 x2 n L2 I2) as [b [Hb1 Hb2]].
    cbn [common_names]. rewrite Ha1. cbn [bind]. rewrite Hb1. cbn [bind]. rewrite H1. cbn [bind fst snd].
    destruct (String.eqb a b) eqn:E.
    + apply String.eqb_eq in E. subst b. exists (n :: ns), (a :: xs). split; [reflexivity|]. split; [cbn; lia|].
      intros m x. cbn [combine In]. rewrite H3. split.
      * intros [H|[k [Hk1 Hk2]]]; [|exists k; auto]. injection H as <- <-. exists n. split; [left; reflexivity|].
        exists a, a. split; [exact Ha2|]. split; [exact Hb2|]. left. auto.
      * intros [k [[Hk|Hk] Hs]]; [|right; exists k; auto]. subst k. left. destruct Hs as [a' [b' [S1 [S2 S3]]]].
        assert (a' = a) by congruence. assert (b' = a) by congruence. subst a' b'.
        destruct S3 as [[_ [-> ->]]|[S3 _]]; [reflexivity|congruence].
    + apply String.eqb_neq in E. eexists _, _. split; [reflexivity|]. split; [cbn; lia|].
      intros m x. cbn [combine In]. rewrite H3. split.
      * intros [H|[H|[k [Hk1 Hk2]]]]; [| |exists k; auto].
        -- exists n. split; [left; reflexivity|]. exists a, b. split; [exact Ha2|]. split; [exact Hb2|]. right. split; [exact E|].
           left. split; congruence.
        -- exists n. split; [left; reflexivity|]. exists a, b. split; [exact Ha2|]. split; [exact Hb2|]. right. split; [exact E|].
           right. split; congruence.
      * intros [k [[Hk|Hk] Hs]]; [|right; right; exists k; auto]. subst k. destruct Hs as [a' [b' [S1 [S2 S3]]]].
        assert (a' = a) by congruence. assert (b' = b) by congruence. subst a' b'.
        destruct S3 as [[S3 _]|[_ [[-> ->]|[-> ->]]]]; [congruence|left|right; left]; reflexivity.
Qed.
Lemma own_names_ok : forall n1 x1 l, length n1 = length x1 -> (forall n, In n l -> In n n1) ->
  exists xs, own_names n1 x1 l = Ok (l, xs) /\ length l = length xs /\
    forall m x, In (m, x) (combine l xs) <-> In m l /\ text_of n1 x1 m = Some x.
Proof.
  intros n1 x1 l L1 Hi. unfold own_names.
  assert (G : exists xs, mapM_res (xml_of String.eqb n1 x1) l = Ok xs /\ length l = length xs /\
    forall m x, In (m, x) (combine l xs) <-> In m l /\ text_of n1 x1 m = Some x).
  { induction l as [|n l IH].
    - exists []. split; [reflexivity|]. split; [reflexivity|]. intros m x. cbn. tauto.
    - destruct IH as [xs [H1 [H2 H3]]]; [intros k Hk; apply Hi; right; exact Hk|].
      destruct (xml_of_text n1 x1 n L1 (Hi n (or_introl eq_refl))) as [a [Ha1 Ha2]].
      exists (a :: xs). cbn [mapM_res]. rewrite Ha1. cbn [bind]. rewrite H1. split; [reflexivity|]. split; [cbn; lia|].
      intros m x. cbn [combine In]. rewrite H3. split.
      + intros [H|[Hm Ht]]; [injection H as <- <-; auto|auto].
      + intros [[Hm|Hm] Ht]; [subst; left; congruence|right; auto]. }
  destruct G as [xs [H1 [H2 H3]]]. exists xs. rewrite H1. cbn [bind]. auto.
Qed.
Lemma combine_app' : forall A B (a1 a2 : list A) (b1 b2 : list B), length a1 = length b1 ->
  combine (a1 ++ a2) (b1 ++ b2) = combine a1 b1 ++ combine a2 b2.
Proof.
  intros A B a1. induction a1 as [|x a1 IH]; intros a2 [|y b1] b2 H; try discriminate; [reflexivity|]. cbn in *. rewrite IH by lia. reflexivity.
Qed.
Lemma intersect_names_ok : forall o n1 x1 n2 x2, permutes o -> length n1 = length x1 -> length n2 = length x2 ->
  exists ns xs, intersect_names o n1 x1 n2 x2 = Ok (ns, xs) /\ length ns = length xs /\
    forall m x, In (m, x) (combine ns xs) <-> exists n, shared n1 x1 n2 x2 n m x.
Proof.
  intros o n1 x1 n2 x2 Ho L1 L2. pose proof Ho as [_ [_ [Pn _]]]. unfold intersect_names.
  assert (M : forall n, In n (ord_names o (set_inter String.eqb n1 n2)) <-> In n n1 /\ In n n2)
    by (intro n; rewrite (perm_In _ _ Pn), (set_inter_In _ string_eqb_iff); tauto).
  destruct (common_names_ok n1 x1 n2 x2 (ord_names o (set_inter String.eqb n1 n2)) L1 L2) as [ns [xs [H1 [H2 H3]]]];
    [intros n Hn; apply M; exact Hn|].
  exists ns, xs. split; [exact H1|]. split; [exact H2|]. intros m x. rewrite H3. split; intros [n Hn]; exists n; [tauto|].
  split; [|exact Hn]. apply M. destruct Hn as [a [b [E1 [E2 _]]]]. split; eapply text_of_In; eassumption.
Qed.
Lemma union_names_ok : forall o n1 x1 n2 x2, permutes o -> length n1 = length x1 -> length n2 = length x2 ->
  exists ns xs, union_names o n1 x1 n2 x2 = Ok (ns, xs) /\ length ns = length xs /\
    forall m x, In (m, x) (combine ns xs) <->
      (exists n, shared n1 x1 n2 x2 n m x) \/ (text_of n1 x1 m = Some x /\ ~ In m n2) \/ (text_of n2 x2 m = Some x /\ ~ In m n1).
Proof.
  intros o n1 x1 n2 x2 Ho L1 L2. pose proof Ho as [_ [_ [Pn _]]].
  destruct (intersect_names_ok o n1 x1 n2 x2 Ho L1 L2) as [ns [xs [H1 [H2 H3]]]]. unfold union_names. unfold intersect_names in H1.
  rewrite H1. cbn [bind].
  assert (M : forall a b n, In n (ord_names o (set_diff String.eqb a b)) <-> In n a /\ ~ In n b)
    by (intros a b n; rewrite (perm_In _ _ Pn), (set_diff_In _ string_eqb_iff); tauto).
  destruct (own_names_ok n1 x1 (ord_names o (set_diff String.eqb n1 n2)) L1) as [ya [A1 [A2 A3]]]; [intros n Hn; apply M in Hn; tauto|].
  destruct (own_names_ok n2 x2 (ord_names o (set_diff String.eqb n2 n1)) L2) as [yb [B1 [B2 B3]]]; [intros n Hn; apply M in Hn; tauto|].
  rewrite A1. cbn [bind]. rewrite B1. cbn [bind]. unfold append_names. cbn [fst snd].
  eexists _, _. split; [reflexivity|]. split; [rewrite !app_length; lia|].
  intros m x. rewrite combine_app' by exact H2. rewrite combine_app' by exact A2. rewrite !in_app_iff, H3, A3, B3, !M.
  split; (intros [H|[H|H]]; [left; exact H|right; left|right; right]).
  - tauto. - tauto.
  - destruct H as [H G]. split; [split; [eapply text_of_In; exact H|exact G]|exact H].
  - destruct H as [H G]. split; [split; [eapply text_of_In; exact H|exact G]|exact H].
Qed.
Lemma intersect_actions_ok : forall o d1 d2, permutes o -> length (doc_actions d1) = length (doc_actions_xml d1) ->
  exists acts xml, intersect_actions o d1 d2 = Ok (acts, xml) /\ length acts = length xml /\
   (forall a, In a acts -> (exists b, In b (doc_actions d1) /\ same_action a b) /\ (exists b, In b (doc_actions d2) /\ same_action a b)) /\
   (forall a b, In a (doc_actions d1) -> In b (doc_actions d2) -> same_action a b -> exists c, In c acts /\ same_action a c).
Proof.
  intros o d1 d2 Ho Hl. pose proof Ho as [_ [_ [_ [Pa _]]]]. unfold intersect_actions.
  set (acts := ord_actions o (set_inter action_eqb (doc_actions d1) (doc_actions d2))).
  destruct (dedup_actions (doc_actions d1)) as [D1 D2].
  assert (M : forall a, In a acts <-> In a (dedup action_eqb (doc_actions d1)) /\ exists b, In b (doc_actions d2) /\ same_action a b).
  { intro a. unfold acts. rewrite (perm_In _ _ Pa). unfold set_inter. rewrite filter_In, memb_action. tauto. }
  assert (G : forall l, (forall a, In a l -> In a (doc_actions d1)) -> exists xml, mapM_res (xml_of action_eqb (doc_actions d1) (doc_actions_xml d1)) l = Ok xml /\ length l = length xml).
  { induction l as [|a l IH]; intro Hi; [exists []; split; reflexivity|].
    destruct IH as [xml [H1 H2]]; [intros b Hb; apply Hi; right; exact Hb|].
    destruct (xml_of_index _ action_eqb (doc_actions d1) (doc_actions_xml d1) a Hl) as [t Ht].
    - exists a. split; [apply Hi; left; reflexivity|]. apply action_eqb_spec. apply same_action_refl.
    - exists (t :: xml). cbn [mapM_res]. rewrite Ht. cbn [bind]. rewrite H1. split; [reflexivity|cbn; lia]. }
  destruct (G acts) as [xml [G1 G2]]; [intros a Ha; apply M in Ha; apply D1; tauto|].
  exists acts, xml. rewrite G1. split; [reflexivity|]. split; [exact G2|]. split.
  - intros a Ha. apply M in Ha. destruct Ha as [Ha Hb]. split; [exists a; split; [apply D1; exact Ha|apply same_action_refl]|exact Hb].
  - intros a b Ha Hb Hab. destruct (D2 a Ha) as [c [Hc1 Hc2]]. exists c. split; [|exact Hc1]. apply M. split; [exact Hc2|].
    exists b. split; [exact Hb|]. eapply same_action_trans; [apply same_action_sym; exact Hc1|exact Hab].
Qed.

(** ** Metadata *)
Lemma not_after_total : forall a b, text_gtb a b = true -> text_gtb b a = false.
Proof.
  intros a b H. unfold text_gtb in *. apply negb_true_iff in H. apply negb_false_iff.
  destruct (cps_leb_total a b) as [H1|H1]; [congruence|exact H1].
Qed.
Lemma not_after_refl : forall a, text_gtb a a = false.
Proof. intro a. unfold text_gtb. apply negb_false_iff. destruct (cps_leb_total a a) as [H|H]; exact H. Qed.
Lemma latest_ok : forall a b, latest a b (compare_objects text_max a b).
Proof.
  intros [a|] [b|]; cbn; auto. unfold text_max, not_after. destruct (text_gtb b a) eqn:E.
  - exists b. split; [reflexivity|]. split; [auto|]. split; [apply not_after_total; exact E|apply not_after_refl].
  - exists a. split; [reflexivity|]. split; [auto|]. split; [apply not_after_refl|exact E].
Qed.
Lemma earliest_ok : forall a b, earliest a b (compare_objects text_min a b).
Proof.
  intros [a|] [b|]; cbn; auto. unfold text_min, not_after. destruct (text_gtb a b) eqn:E.
  - exists b. split; [reflexivity|]. split; [auto|]. split; [apply not_after_total; exact E|apply not_after_refl].
  - exists a. split; [reflexivity|]. split; [auto|]. split; [apply not_after_refl|exact E].
Qed.

(** ** Whole documents *)
Lemma only_expanded_ok : forall d g', spelled_out (doc_lgr d) g' -> only_expanded d (set_doc_lgr d g').
Proof.
  intros d g' [S1 [S2 [S3 [S4 [S5 [S6 _]]]]]]. unfold only_expanded, entry_of. cbn [set_doc_lgr doc_lgr].
  split; [intro c; rewrite !lookup_lk; apply S3|]. auto 20.
Qed.
Lemma start_empty : forall m c, lk (lg_rep (set_refs (new_lgr None false) m)) c = None.
Proof. intros m [|x c]; reflexivity. Qed.

Record union_facts (o : orders) (today : cps) (d1 d2 d : doc) : Prop := mkUnionFacts {
  uf_reachable : lgr_reachable (doc_lgr d);
  uf_refs : Permutation (ref_values (lg_refs (doc_lgr d)))
      (set_union String.eqb (ref_values (lg_refs (doc_lgr d1))) (ref_values (lg_refs (doc_lgr d2))));
  uf_entries : forall c, match entry_of d1 c, entry_of d2 c with
              | None, None => entry_of d c = None
              | Some a, Some b => exists ch, entry_of d c = Some ch /\ both_union o a b c ch
              | Some a, None => exists ch, entry_of d c = Some ch /\
                  entry_is ch c (ch_comment a) (ch_tags a) (ch_when a) (ch_not_when a) []
              | None, Some b => exists ch, entry_of d c = Some ch /\
                  entry_is ch c (ch_comment b) (ch_tags b) (ch_when b) (ch_not_when b) (get_variants b)
              end;
  uf_meta : doc_meta d = union_metadata o today (doc_meta d1) (doc_meta d2);
  uf_actions : doc_actions d = dedup action_eqb (doc_actions d1 ++ doc_actions d2);
  uf_rules : union_names o (doc_rules d1) (doc_rules_xml d1) (doc_rules d2) (doc_rules_xml d2) = Ok (doc_rules d, doc_rules_xml d);
  uf_classes : union_names o (doc_classes d1) (doc_classes_xml d1) (doc_classes d2) (doc_classes_xml d2) = Ok (doc_classes d, doc_classes_xml d);
  uf_name : doc_name d = ("Union of " ++ doc_name d1 ++ " and " ++ doc_name d2)%string }.

Lemma union_ok : forall o today d1 d2, permutes o -> input_ok d1 -> input_ok d2 ->
  exists d1' d2' d, union_lgrs o today d1 d2 = (d1', d2', Ok d) /\ only_expanded d1 d1' /\ only_expanded d2 d2' /\ union_facts o today d1 d2 d.
Proof.
  intros o today d1 d2 Ho [T1 [O1 [Lr1 [Lc1 La1]]]] [T2 [O2 [Lr2 [Lc2 La2]]]]. pose proof Ho as [_ [_ [Pn _]]].
  destruct (expanded_ok _ T1) as [g1 [E1 S1]]. destruct (expanded_ok _ T2) as [g2 [E2 S2]].
  unfold union_lgrs, combine_lgrs. rewrite E1, E2.
  pose proof (only_expanded_ok d1 g1 S1) as X1. pose proof (only_expanded_ok d2 g2 S2) as X2.
  exists (set_doc_lgr d1 g1), (set_doc_lgr d2 g2).
  unfold union_body. cbn [set_doc_lgr doc_lgr doc_name doc_meta doc_actions doc_actions_xml doc_rules doc_rules_xml doc_classes doc_classes_xml].
  pose proof S1 as [_ [_ [_ [_ [F1 _]]]]]. pose proof S2 as [_ [_ [_ [_ [F2 _]]]]]. rewrite F1, F2.
  destruct (start_ok (ord_names o (set_union String.eqb (ref_values (lg_refs (doc_lgr d1))) (ref_values (lg_refs (doc_lgr d2))))))
    as [m [M1 [M2 M3]]]. rewrite M1. cbn [bind].
  destruct (union_repertoire_ok o (doc_lgr d1) (doc_lgr d2) g1 g2 m _ Ho (tidy_reachable _ T1) (tidy_reachable _ T2) O1 O2 S1 S2 M3 (start_empty m))
    as [g' [U1 [U2 U3]]]. rewrite U1. unfold union_actions. cbn [doc_actions doc_actions_xml].
  destruct (union_names_ok o _ _ _ _ Ho Lr1 Lr2) as [rn [rx [N1 _]]]. rewrite N1. cbn [bind].
  destruct (union_names_ok o _ _ _ _ Ho Lc1 Lc2) as [cn [cx [N2 _]]]. rewrite N2. cbn [bind fst snd].
  eexists. split; [reflexivity|]. split; [exact X1|]. split; [exact X2|].
  destruct U2 as [B1 [B2 B3]].
  constructor; cbn [doc_lgr doc_name doc_meta doc_actions doc_actions_xml doc_rules doc_rules_xml doc_classes doc_classes_xml]; auto.
  - rewrite B3, M2. apply Pn.
  - intro c. unfold entry_of. cbn [doc_lgr]. rewrite !lookup_lk. exact (U3 c).
Qed.

Record inter_facts (o : orders) (today : cps) (d1 d2 d : doc) : Prop := mkInterFacts {
  if_reachable : lgr_reachable (doc_lgr d);
  if_refs : Permutation (ref_values (lg_refs (doc_lgr d)))
      (set_inter String.eqb (ref_values (lg_refs (doc_lgr d1))) (ref_values (lg_refs (doc_lgr d2))));
  if_entries : forall c, match entry_of d1 c, entry_of d2 c with
              | Some a, Some b => exists ch, entry_of d c = Some ch /\ both_inter o a b c ch
              | _, _ => entry_of d c = None
              end;
  if_meta : doc_meta d = intersect_metadata o today (doc_meta d1) (doc_meta d2);
  if_actions : intersect_actions o d1 d2 = Ok (doc_actions d, doc_actions_xml d);
  if_rules : intersect_names o (doc_rules d1) (doc_rules_xml d1) (doc_rules d2) (doc_rules_xml d2) = Ok (doc_rules d, doc_rules_xml d);
  if_classes : intersect_names o (doc_classes d1) (doc_classes_xml d1) (doc_classes d2) (doc_classes_xml d2) = Ok (doc_classes d, doc_classes_xml d) }.

Lemma intersect_ok : forall o today d1 d2, permutes o -> input_ok d1 -> input_ok d2 ->
  exists d1' d2' d, intersect_lgrs o today d1 d2 = (d1', d2', Ok d) /\ only_expanded d1 d1' /\ only_expanded d2 d2' /\ inter_facts o today d1 d2 d.
Proof.
  intros o today d1 d2 Ho [T1 [O1 [Lr1 [Lc1 La1]]]] [T2 [O2 [Lr2 [Lc2 La2]]]]. pose proof Ho as [_ [_ [Pn _]]].
  destruct (expanded_ok _ T1) as [g1 [E1 S1]]. destruct (expanded_ok _ T2) as [g2 [E2 S2]].
  unfold intersect_lgrs, combine_lgrs. rewrite E1, E2.
  pose proof (only_expanded_ok d1 g1 S1) as X1. pose proof (only_expanded_ok d2 g2 S2) as X2.
  exists (set_doc_lgr d1 g1), (set_doc_lgr d2 g2).
  unfold intersect_body. cbn [set_doc_lgr doc_lgr doc_name doc_meta doc_actions doc_actions_xml doc_rules doc_rules_xml doc_classes doc_classes_xml].
  pose proof S1 as [_ [_ [_ [_ [F1 _]]]]]. pose proof S2 as [_ [_ [_ [_ [F2 _]]]]]. rewrite F1, F2.
  destruct (start_ok (ord_names o (set_inter String.eqb (ref_values (lg_refs (doc_lgr d1))) (ref_values (lg_refs (doc_lgr d2))))))
    as [m [M1 [M2 M3]]]. rewrite M1. cbn [bind].
  destruct (intersect_repertoire_ok o (doc_lgr d1) (doc_lgr d2) g1 g2 m _ Ho (tidy_reachable _ T1) (tidy_reachable _ T2) O1 O2 S1 S2 M3 (start_empty m))
    as [g' [U1 [U2 U3]]]. rewrite U1.
  destruct (intersect_actions_ok o d1 d2 Ho La1) as [acts [ax [A1 _]]]. 
  change (intersect_actions o _ _) with (intersect_actions o d1 d2). rewrite A1. cbn [bind].
  destruct (intersect_names_ok o _ _ _ _ Ho Lr1 Lr2) as [rn [rx [N1 _]]]. rewrite N1. cbn [bind].
  destruct (intersect_names_ok o _ _ _ _ Ho Lc1 Lc2) as [cn [cx [N2 _]]]. rewrite N2. cbn [bind fst snd].
  eexists. split; [reflexivity|]. split; [exact X1|]. split; [exact X2|].
  destruct U2 as [B1 [B2 B3]].
  constructor; cbn [doc_lgr doc_name doc_meta doc_actions doc_actions_xml doc_rules doc_rules_xml doc_classes doc_classes_xml]; auto.
  - rewrite B3, M2. apply Pn.
  - intro c. unfold entry_of. cbn [doc_lgr]. rewrite !lookup_lk. exact (U3 c).
Qed.

Section Stated.
  Variable o : orders.
  Variable today : cps.
  Variables d1 d2 d : doc.
  Hypothesis Ho : permutes o.
  Hypothesis I1 : input_ok d1.
  Hypothesis I2 : input_ok d2.

  Lemma union_facts_of : union_is o today d1 d2 d -> union_facts o today d1 d2 d.
  Proof.
    intros [a [b H]]. destruct (union_ok o today d1 d2 Ho I1 I2) as [a' [b' [d' [H1 [_ [_ H2]]]]]].
    rewrite H in H1. injection H1 as _ _ ->. exact H2.
  Qed.
  Lemma inter_facts_of : intersection_is o today d1 d2 d -> inter_facts o today d1 d2 d.
  Proof.
    intros [a [b H]]. destruct (intersect_ok o today d1 d2 Ho I1 I2) as [a' [b' [d' [H1 [_ [_ H2]]]]]].
    rewrite H in H1. injection H1 as _ _ ->. exact H2.
  Qed.

  Theorem union_codepoints : union_is o today d1 d2 d ->
    forall c, entry_of d c <> None <-> entry_of d1 c <> None \/ entry_of d2 c <> None.
  Proof.
    intros H c. apply union_facts_of in H. pose proof (uf_entries _ _ _ _ _ H c) as E.
    destruct (entry_of d1 c), (entry_of d2 c).
    - destruct E as [ch [-> _]]. split; [left|]; discriminate.
    - destruct E as [ch [-> _]]. split; [left|]; discriminate.
    - destruct E as [ch [-> _]]. split; [right|]; discriminate.
    - rewrite E. tauto.
  Qed.
  Theorem inter_codepoints : intersection_is o today d1 d2 d ->
    forall c, entry_of d c <> None <-> entry_of d1 c <> None /\ entry_of d2 c <> None.
  Proof.
    intros H c. apply inter_facts_of in H. pose proof (if_entries _ _ _ _ _ H c) as E.
    destruct (entry_of d1 c), (entry_of d2 c).
    - destruct E as [ch [-> _]]. split; [split; discriminate|discriminate].
    - rewrite E. tauto.
    - rewrite E. tauto.
    - rewrite E. tauto.
  Qed.
  Lemma some_tag : forall ch t, has_tag (Some ch) t <-> In t (ch_tags ch).
  Proof. intros ch t. split; [intros [c [H1 H2]]; injection H1 as ->; exact H2|intro H; exists ch; auto]. Qed.
  Lemma none_tag : forall t, has_tag None t <-> False.
  Proof. intro t. split; [intros [c [H1 _]]; discriminate|tauto]. Qed.
  Theorem union_tags : union_is o today d1 d2 d ->
    forall c t, has_tag (entry_of d c) t <-> has_tag (entry_of d1 c) t \/ has_tag (entry_of d2 c) t.
  Proof.
    intros H c t. apply union_facts_of in H. pose proof (uf_entries _ _ _ _ _ H c) as E. pose proof Ho as [_ [_ [Pn _]]].
    destruct (entry_of d1 c) as [a|], (entry_of d2 c) as [b|].
    - destruct E as [ch [-> [_ [_ [_ [_ [E _]]]]]]]. rewrite !some_tag, E, (perm_In _ _ Pn), (set_union_In _ string_eqb_iff). tauto.
    - destruct E as [ch [-> [_ [_ [_ [_ [E _]]]]]]]. rewrite !some_tag, none_tag, E. tauto.
    - destruct E as [ch [-> [_ [_ [_ [_ [E _]]]]]]]. rewrite !some_tag, none_tag, E. tauto.
    - rewrite E, none_tag. tauto.
  Qed.
  Theorem inter_tags : intersection_is o today d1 d2 d ->
    forall c t, has_tag (entry_of d c) t <-> has_tag (entry_of d1 c) t /\ has_tag (entry_of d2 c) t.
  Proof.
    intros H c t. apply inter_facts_of in H. pose proof (if_entries _ _ _ _ _ H c) as E. pose proof Ho as [_ [_ [Pn _]]].
    destruct (entry_of d1 c) as [a|], (entry_of d2 c) as [b|].
    - destruct E as [ch [-> [_ [_ [_ [_ [E _]]]]]]]. rewrite !some_tag, E, (perm_In _ _ Pn), (set_inter_In _ string_eqb_iff). tauto.
    - rewrite E, none_tag. tauto.
    - rewrite E, none_tag. tauto.
    - rewrite E, none_tag. tauto.
  Qed.
  Lemma some_variant : forall ch v, has_variant (Some ch) v <-> In v (get_variants ch).
  Proof. intros ch v. split; [intros [c [H1 H2]]; injection H1 as ->; exact H2|intro H; exists ch; auto]. Qed.
  Lemma none_variant : forall v, has_variant None v <-> False.
  Proof. intro v. split; [intros [c [H1 _]]; discriminate|tauto]. Qed.
  Lemma some_vkey : forall ch k, has_vkey (Some ch) k <-> In k (map vkey (get_variants ch)).
  Proof.
    intros ch k. unfold has_vkey. rewrite in_map_iff. split; intros [v [H1 H2]]; exists v; rewrite some_variant in *; auto.
  Qed.
  Lemma none_vkey : forall k, has_vkey None k <-> False.
  Proof. intro k. split; [intros [v [H _]]; apply none_variant in H; exact H|tauto]. Qed.
  Lemma entry_wf : forall e c ch, input_ok e -> entry_of e c = Some ch -> wf_char ch.
  Proof.
    intros e c ch [T _] H. unfold entry_of in H. rewrite lookup_lk in H. eapply lk_wf; [|exact H].
    apply lgr_reachable_wf. apply tidy_reachable. exact T.
  Qed.

  Theorem union_variants_of : union_is o today d1 d2 d ->
    forall c, entry_of d2 c <> None ->
    forall u, has_variant (entry_of d c) u <->
      exists v, u = unreferenced v /\
        (has_variant (entry_of d1 c) v \/ (has_variant (entry_of d2 c) v /\ ~ has_vkey (entry_of d1 c) (vkey v))).
  Proof.
    intros H c H2 u. apply union_facts_of in H. pose proof (uf_entries _ _ _ _ _ H c) as E.
    destruct (entry_of d2 c) as [b|] eqn:Eb; [|congruence]. destruct (entry_of d1 c) as [a|] eqn:Ea.
    - destruct E as [ch [-> E]]. unfold both_union, entry_is in E.
      destruct E as [_ [_ [_ [_ [_ [_ [_ E]]]]]]]. rewrite some_variant, E, in_map_iff.
      destruct (union_variants (get_variants a) (get_variants b) (get_variants_NoDup a (entry_wf d1 c a I1 Ea))
        (get_variants_NoDup b (entry_wf d2 c b I2 Eb))) as [_ U].
      split; intros [v [Hv1 Hv2]]; exists v; rewrite !some_variant, some_vkey in *; (split; [congruence|]); apply U; exact Hv2.
    - destruct E as [ch [-> E]]. unfold entry_is in E.
      destruct E as [_ [_ [_ [_ [_ [_ [_ E]]]]]]]. rewrite some_variant, E, in_map_iff.
      split; intros [v [Hv1 Hv2]]; exists v; rewrite ?some_variant, ?none_variant, ?none_vkey in *; (split; [congruence|]); tauto.
  Qed.
  Theorem union_first_only_variants : union_is o today d1 d2 d ->
    forall c, entry_of d2 c = None -> forall u, ~ has_variant (entry_of d c) u.
  Proof.
    intros H c H2 u Hu. apply union_facts_of in H. pose proof (uf_entries _ _ _ _ _ H c) as E. rewrite H2 in E.
    destruct (entry_of d1 c) as [a|].
    - destruct E as [ch [E1 E]]. rewrite E1, some_variant in Hu. destruct E as [_ [_ [_ [_ [_ [_ [_ E]]]]]]]. apply E in Hu. destruct Hu.
    - rewrite E, none_variant in Hu. exact Hu.
  Qed.
  Theorem inter_variants_of : intersection_is o today d1 d2 d ->
    forall c u, has_variant (entry_of d c) u <->
      exists v, u = mkVariant (v_cp v) None (v_when v) (v_not_when v) None [] /\
        has_variant (entry_of d1 c) v /\ has_vkey (entry_of d2 c) (vkey v).
  Proof.
    intros H c u. apply inter_facts_of in H. pose proof (if_entries _ _ _ _ _ H c) as E.
    destruct (entry_of d1 c) as [a|] eqn:Ea, (entry_of d2 c) as [b|] eqn:Eb.
    - destruct E as [ch [-> E]]. unfold both_inter, entry_is in E.
      destruct E as [_ [_ [_ [_ [_ [_ [_ E]]]]]]]. rewrite some_variant, E, in_map_iff.
      destruct (inter_variants (get_variants a) (get_variants b) (get_variants_NoDup a (entry_wf d1 c a I1 Ea))
        (get_variants_NoDup b (entry_wf d2 c b I2 Eb))) as [_ U].
      split.
      + intros [v [Hv1 Hv2]]. apply U in Hv2. destruct Hv2 as [w [W1 [W2 W3]]]. exists w. rewrite some_variant, some_vkey.
        split; [|auto]. subst. reflexivity.
      + intros [v [Hv1 [Hv2 Hv3]]]. rewrite some_variant in Hv2. rewrite some_vkey in Hv3. exists (bare v). split; [subst; reflexivity|].
        apply U. exists v. auto.
    - rewrite E, none_variant. split; [tauto|]. intros [v [_ [_ Hv]]]. apply none_vkey in Hv. exact Hv.
    - rewrite E, none_variant. split; [tauto|]. intros [v [_ [Hv _]]]. apply none_variant in Hv. exact Hv.
    - rewrite E, none_variant. split; [tauto|]. intros [v [_ [Hv _]]]. apply none_variant in Hv. exact Hv.
  Qed.
  Theorem inter_variant_keys : intersection_is o today d1 d2 d ->
    forall c k, has_vkey (entry_of d c) k <-> has_vkey (entry_of d1 c) k /\ has_vkey (entry_of d2 c) k.
  Proof.
    intros H c k. pose proof (inter_variants_of H c) as V. split.
    - intros [u [H1 H2]]. apply V in H1. destruct H1 as [v [E1 [E2 E3]]]. subst u. change (vkey v = k) in H2. subst k.
      split; [exists v; auto|exact E3].
    - intros [[v [H1 H2]] H3]. subst k. eexists. split; [apply V; exists v; split; [reflexivity|auto]|]. reflexivity.
  Qed.
  Theorem union_contexts : union_is o today d1 d2 d -> forall c a, 
    (entry_of d1 c = Some a /\ entry_of d2 c = None) \/ (entry_of d1 c = None /\ entry_of d2 c = Some a) ->
    exists ch, entry_of d c = Some ch /\ ch_when ch = ch_when a /\ ch_not_when ch = ch_not_when a /\ ch_comment ch = ch_comment a.
  Proof.
    intros H c a Ha. apply union_facts_of in H. pose proof (uf_entries _ _ _ _ _ H c) as E.
    destruct Ha as [[E1 E2]|[E1 E2]]; rewrite E1, E2 in E; destruct E as [ch [Ec [_ [_ [C1 [_ [_ [C2 [C3 _]]]]]]]]]; exists ch; auto.
  Qed.
  Lemma choose_joined : forall a b, joined a b (choose_comment a b).
  Proof.
    intros [a|] [b|]; cbn; auto. destruct (String.eqb_spec a b) as [->|E]; split; intro H; auto; congruence.
  Qed.
  Theorem union_comments : union_is o today d1 d2 d -> forall c a b, entry_of d1 c = Some a -> entry_of d2 c = Some b ->
    exists ch, entry_of d c = Some ch /\ joined (ch_comment a) (ch_comment b) (ch_comment ch).
  Proof.
    intros H c a b E1 E2. apply union_facts_of in H. pose proof (uf_entries _ _ _ _ _ H c) as E. rewrite E1, E2 in E.
    destruct E as [ch [Ec [_ [_ [C1 _]]]]]. exists ch. split; auto. rewrite C1. apply choose_joined.
  Qed.
  Theorem inter_comments : intersection_is o today d1 d2 d -> forall c a b, entry_of d1 c = Some a -> entry_of d2 c = Some b ->
    exists ch, entry_of d c = Some ch /\ joined (ch_comment a) (ch_comment b) (ch_comment ch).
  Proof.
    intros H c a b E1 E2. apply inter_facts_of in H. pose proof (if_entries _ _ _ _ _ H c) as E. rewrite E1, E2 in E.
    destruct E as [ch [Ec [_ [_ [C1 _]]]]]. exists ch. split; auto. rewrite C1. apply choose_joined.
  Qed.
  Theorem union_kind : union_is o today d1 d2 d -> forall c ch, entry_of d c = Some ch -> ch_refs ch = [] /\ is_range ch = false.
  Proof.
    intros H c ch Hc. apply union_facts_of in H. pose proof (uf_entries _ _ _ _ _ H c) as E.
    assert (K : is_range (mkChar c (kind_of c) None [] [] None None []) = false) by (destruct c as [|? [|]]; reflexivity).
    unfold is_range in *. cbn [ch_kind] in K.
    destruct (entry_of d1 c) as [a|], (entry_of d2 c) as [b|]; try congruence;
      destruct E as [ch' [E1 [_ [E2 [_ [E3 _]]]]]]; rewrite Hc in E1; injection E1 as ->; rewrite E2; auto.
  Qed.
  Theorem union_action_verdict : union_is o today d1 d2 d ->
    forall rm label ds only, fst (apply_actions rm (doc_actions d) label ds only) = fst (apply_actions rm (doc_actions d1 ++ doc_actions d2) label ds only).
  Proof. intros H rm label ds only. apply union_facts_of in H. rewrite (uf_actions _ _ _ _ _ H). apply union_actions_verdict. Qed.
  Theorem union_actions_once : union_is o today d1 d2 d ->
    (forall a, In a (doc_actions d) -> In a (doc_actions d1) \/ In a (doc_actions d2)) /\
    (forall a, In a (doc_actions d1) \/ In a (doc_actions d2) -> exists b, same_action a b /\ In b (doc_actions d)).
  Proof.
    intros H. apply union_facts_of in H. rewrite (uf_actions _ _ _ _ _ H).
    destruct (dedup_actions (doc_actions d1 ++ doc_actions d2)) as [D1 D2]. split.
    - intros a Ha. apply in_app_iff. apply D1. exact Ha.
    - intros a Ha. apply D2. apply in_app_iff. exact Ha.
  Qed.
  Theorem inter_action_set : intersection_is o today d1 d2 d ->
    (forall a, In a (doc_actions d) -> (exists b, In b (doc_actions d1) /\ same_action a b) /\ (exists b, In b (doc_actions d2) /\ same_action a b)) /\
    (forall a b, In a (doc_actions d1) -> In b (doc_actions d2) -> same_action a b -> exists c, In c (doc_actions d) /\ same_action a c).
  Proof.
    intros H. apply inter_facts_of in H. destruct I1 as [_ [_ [_ [_ L]]]].
    destruct (intersect_actions_ok o d1 d2 Ho L) as [acts [xml [A1 [_ A2]]]]. rewrite (if_actions _ _ _ _ _ H) in A1. injection A1 as -> _. exact A2.
  Qed.
  Theorem union_metadata_of : union_is o today d1 d2 d ->
    (forall l, In l (md_languages (doc_meta d)) <-> In l (md_languages (doc_meta d1)) \/ In l (md_languages (doc_meta d2))) /\
    NoDup (md_languages (doc_meta d)) /\
    latest (md_start (doc_meta d1)) (md_start (doc_meta d2)) (md_start (doc_meta d)) /\
    earliest (md_end (doc_meta d1)) (md_end (doc_meta d2)) (md_end (doc_meta d)) /\
    latest (md_unicode (doc_meta d1)) (md_unicode (doc_meta d2)) (md_unicode (doc_meta d)) /\
    md_date (doc_meta d) = Some today.
  Proof.
    intro H. apply union_facts_of in H. rewrite (uf_meta _ _ _ _ _ H). pose proof Ho as [Pc _].
    unfold union_metadata. cbn [md_languages md_start md_end md_unicode md_date].
    split; [intro l; rewrite (perm_In _ _ Pc), (set_union_In _ cps_eqb_eq); tauto|].
    split; [apply (perm_NoDup _ _ Pc); apply (set_union_NoDup _ cps_eqb_eq)|].
    split; [apply latest_ok|]. split; [apply earliest_ok|]. split; [apply latest_ok|]. reflexivity.
  Qed.
  Theorem inter_metadata_of : intersection_is o today d1 d2 d ->
    (forall l, In l (md_languages (doc_meta d)) <-> In l (md_languages (doc_meta d1)) /\ In l (md_languages (doc_meta d2))) /\
    NoDup (md_languages (doc_meta d)) /\
    latest (md_start (doc_meta d1)) (md_start (doc_meta d2)) (md_start (doc_meta d)) /\
    earliest (md_end (doc_meta d1)) (md_end (doc_meta d2)) (md_end (doc_meta d)) /\
    latest (md_unicode (doc_meta d1)) (md_unicode (doc_meta d2)) (md_unicode (doc_meta d)) /\
    md_date (doc_meta d) = Some today.
  Proof.
    intro H. apply inter_facts_of in H. rewrite (if_meta _ _ _ _ _ H). pose proof Ho as [Pc _].
    unfold intersect_metadata. cbn [md_languages md_start md_end md_unicode md_date].
    split; [intro l; rewrite (perm_In _ _ Pc), (set_inter_In _ cps_eqb_eq); tauto|].
    split; [apply (perm_NoDup _ _ Pc); apply (set_inter_NoDup _ cps_eqb_eq)|].
    split; [apply latest_ok|]. split; [apply earliest_ok|]. split; [apply latest_ok|]. reflexivity.
  Qed.
  Theorem union_references : union_is o today d1 d2 d ->
    NoDup (ref_values (lg_refs (doc_lgr d))) /\
    forall v, In v (ref_values (lg_refs (doc_lgr d))) <-> In v (ref_values (lg_refs (doc_lgr d1))) \/ In v (ref_values (lg_refs (doc_lgr d2))).
  Proof.
    intro H. apply union_facts_of in H. pose proof (uf_refs _ _ _ _ _ H) as P. split.
    - eapply Permutation_NoDup; [apply Permutation_sym; exact P|apply (set_union_NoDup _ string_eqb_iff)].
    - intro v. rewrite <- (set_union_In _ string_eqb_iff). split; apply Permutation_in; [exact P|apply Permutation_sym; exact P].
  Qed.
  Theorem inter_references : intersection_is o today d1 d2 d ->
    NoDup (ref_values (lg_refs (doc_lgr d))) /\
    forall v, In v (ref_values (lg_refs (doc_lgr d))) <-> In v (ref_values (lg_refs (doc_lgr d1))) /\ In v (ref_values (lg_refs (doc_lgr d2))).
  Proof.
    intro H. apply inter_facts_of in H. pose proof (if_refs _ _ _ _ _ H) as P. split.
    - eapply Permutation_NoDup; [apply Permutation_sym; exact P|apply (set_inter_NoDup _ string_eqb_iff)].
    - intro v. rewrite <- (set_inter_In _ string_eqb_iff). split; apply Permutation_in; [exact P|apply Permutation_sym; exact P].
  Qed.
  (** A rule with the same text in both, or defined in one only, is kept as it is. *)
  Theorem union_rules_kept : union_is o today d1 d2 d ->
    forall n x, (text_of (doc_rules d1) (doc_rules_xml d1) n = Some x /\ text_of (doc_rules d2) (doc_rules_xml d2) n = Some x) \/
      (text_of (doc_rules d1) (doc_rules_xml d1) n = Some x /\ ~ In n (doc_rules d2)) \/
      (text_of (doc_rules d2) (doc_rules_xml d2) n = Some x /\ ~ In n (doc_rules d1)) ->
    In (n, x) (combine (doc_rules d) (doc_rules_xml d)).
  Proof.
    intros H n x Hn. apply union_facts_of in H. destruct I1 as [_ [_ [L1 _]]]. destruct I2 as [_ [_ [L2 _]]].
    destruct (union_names_ok o _ _ _ _ Ho L1 L2) as [ns [xs [N1 [_ N2]]]]. rewrite (uf_rules _ _ _ _ _ H) in N1. injection N1 as -> ->.
    apply N2. destruct Hn as [[H1 H2]|Hn]; [|right; exact Hn]. left. exists n, x, x. split; [exact H1|]. split; [exact H2|]. left. auto.
  Qed.
  Theorem union_rules_origin : union_is o today d1 d2 d ->
    length (doc_rules d) = length (doc_rules_xml d) /\
    forall m x, In (m, x) (combine (doc_rules d) (doc_rules_xml d)) ->
      (text_of (doc_rules d1) (doc_rules_xml d1) m = Some x) \/ (text_of (doc_rules d2) (doc_rules_xml d2) m = Some x) \/
      exists n a b, text_of (doc_rules d1) (doc_rules_xml d1) n = Some a /\ text_of (doc_rules d2) (doc_rules_xml d2) n = Some b /\ a <> b /\
        (m = (n ++ "_1")%string \/ m = (n ++ "_2")%string).
  Proof.
    intros H. apply union_facts_of in H. destruct I1 as [_ [_ [L1 _]]]. destruct I2 as [_ [_ [L2 _]]].
    destruct (union_names_ok o _ _ _ _ Ho L1 L2) as [ns [xs [N1 [N0 N2]]]]. rewrite (uf_rules _ _ _ _ _ H) in N1. injection N1 as -> ->.
    split; [exact N0|]. intros m x Hm. apply N2 in Hm. destruct Hm as [[n [a [b [A1 [A2 A3]]]]]|[[A1 _]|[A1 _]]]; auto.
    destruct A3 as [[E1 [E2 E3]]|[E1 E2]]; [subst; auto|]. right. right. exists n, a, b. tauto.
  Qed.
End Stated.

Theorem union_total : forall o today d1 d2, permutes o -> input_ok d1 -> input_ok d2 ->
  exists d1' d2' d, union_lgrs o today d1 d2 = (d1', d2', Ok d) /\ only_expanded d1 d1' /\ only_expanded d2 d2' /\
    lgr_reachable (doc_lgr d).
Proof.
  intros o today d1 d2 Ho I1 I2. destruct (union_ok o today d1 d2 Ho I1 I2) as [a [b [d [H1 [H2 [H3 H4]]]]]].
  exists a, b, d. split; [exact H1|]. split; [exact H2|]. split; [exact H3|]. apply (uf_reachable _ _ _ _ _ H4).
Qed.
Theorem intersect_total : forall o today d1 d2, permutes o -> input_ok d1 -> input_ok d2 ->
  exists d1' d2' d, intersect_lgrs o today d1 d2 = (d1', d2', Ok d) /\ only_expanded d1 d1' /\ only_expanded d2 d2' /\
    lgr_reachable (doc_lgr d).
Proof.
  intros o today d1 d2 Ho I1 I2. destruct (intersect_ok o today d1 d2 Ho I1 I2) as [a [b [d [H1 [H2 [H3 H4]]]]]].
  exists a, b, d. split; [exact H1|]. split; [exact H2|]. split; [exact H3|]. apply (if_reachable _ _ _ _ _ H4).
Qed.
