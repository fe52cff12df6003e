From Verif Require Import Base BaseFacts ActionModel ActionSpec.
Open Scope string_scope.

Lemma in_types_iff : forall l d, in_types l d = true <-> type_listed l d.
Proof.
  intros l [s|]; simpl; unfold type_listed.
  - rewrite (memb_In _ _ string_eqb_iff). split; [eauto|]. intros [s' [H1 H2]]. congruence.
  - split; [discriminate|]. intros [s [H _]]. discriminate.
Qed.

Lemma nonempty_ds : forall (ds : dispset), negb (match ds with [] => true | _ => false end) = true <-> ds <> [].
Proof. intros [|d ds]; simpl; split; intro H; congruence. Qed.

Lemma all_types_iff : forall l (ds : dispset), forallb (in_types l) ds = true <-> forall d, In d ds -> type_listed l d.
Proof.
  intros l ds. rewrite forallb_forall. split; intros H d Hd; specialize (H d Hd); apply in_types_iff; exact H.
Qed.

Lemma act_apply_iff : forall rmatch a label ds only,
  (triggers rmatch a label ds only /\ act_apply rmatch a label ds only = Some (a_disp a)) \/
  (~ triggers rmatch a label ds only /\ act_apply rmatch a label ds only = None).
Proof.
  intros rmatch a label ds only.
  assert (H1 : act_rule rmatch a label = true <-> rule_condition rmatch a label).
  { unfold act_rule, rule_condition. destruct (a_match a) as [r|]; [tauto|].
    destruct (a_not_match a) as [r|]; [|tauto]. rewrite negb_true_iff. tauto. }
  assert (H2 : act_variant a ds only = true <-> variant_condition a ds only).
  { unfold act_variant, variant_condition. destruct (a_any a) as [l|].
    - rewrite existsb_exists. split; intros [d [Hd1 Hd2]]; exists d; split; auto; apply in_types_iff; exact Hd2.
    - destruct (a_all a) as [l|].
      + rewrite andb_true_iff, nonempty_ds, all_types_iff. tauto.
      + destruct (a_only a) as [l|]; [|tauto].
        rewrite !andb_true_iff, nonempty_ds, all_types_iff. tauto. }
  unfold act_apply, triggers. rewrite <- H1, <- H2.
  destruct (act_rule rmatch a label), (act_variant a ds only); simpl; auto; right; split; auto; intros [? ?]; discriminate.
Qed.

Lemma apply_from_spec : forall rmatch label ds only l idx,
  (exists i a, nth_error l i = Some a /\ triggers rmatch a label ds only /\
     (forall j b, (j < i)%nat -> nth_error l j = Some b -> ~ triggers rmatch b label ds only) /\
     apply_actions_from rmatch l idx label ds only = (Some (a_disp a), (idx + Z.of_nat i)%Z))
  \/
  ((forall a, In a l -> ~ triggers rmatch a label ds only) /\
   apply_actions_from rmatch l idx label ds only = (None, (-1)%Z)).
Proof.
  intros rmatch label ds only l. induction l as [|a l IH]; intro idx; simpl.
  - right. split; auto.
  - destruct (act_apply_iff rmatch a label ds only) as [[Ht Ha]|[Ht Ha]]; rewrite Ha.
    + left. exists 0%nat, a. split; auto. split; auto. split; [intros j b Hj; lia|]. rewrite Z.add_0_r. reflexivity.
    + destruct (IH (idx + 1)%Z) as [[i [b [H1 [H2 [H3 H4]]]]]|[H1 H2]].
      * left. exists (S i), b. split; auto. split; auto. split.
        -- intros [|j] c Hj Hc; simpl in Hc; [injection Hc as Hc; subst; exact Ht|]. apply (H3 j); auto. lia.
        -- rewrite H4. f_equal. lia.
      * right. split; auto. intros b [Hb|Hb]; [subst; exact Ht|auto].
Qed.

Theorem first_triggered : forall rmatch acts label ds only,
  exists i a, nth_error (acts ++ default_actions) i = Some a /\ triggers rmatch a label ds only /\
    (forall j b, (j < i)%nat -> nth_error (acts ++ default_actions) j = Some b -> ~ triggers rmatch b label ds only) /\
    apply_actions rmatch acts label ds only = (Some (a_disp a), Z.of_nat i).
Proof.
  intros rmatch acts label ds only. unfold apply_actions, effective_actions.
  destruct (apply_from_spec rmatch label ds only (acts ++ default_actions) 0) as [H|[H _]].
  - destruct H as [i [a [H1 [H2 [H3 H4]]]]]. exists i, a. split; [exact H1|]. split; [exact H2|]. split; [exact H3|]. exact H4.
  - exfalso. apply (H (mkAction "valid" None None None None None)).
    + apply in_app_iff. right. simpl. auto 10.
    + split; exact I.
Qed.

(** Actions added after a triggering explicit one are never reached. *)
Theorem later_actions_irrelevant : forall rmatch acts extra label ds only d i,
  apply_actions rmatch acts label ds only = (Some d, Z.of_nat i) -> (i < length acts)%nat ->
  apply_actions rmatch (acts ++ extra) label ds only = (Some d, Z.of_nat i).
Proof.
  intros rmatch acts extra label ds only d i H Hi. unfold apply_actions, effective_actions in *.
  rewrite <- app_assoc. revert H. generalize (extra ++ default_actions)%list as ys. generalize default_actions as zs.
  assert (Hgen : forall zs ys idx,
    apply_actions_from rmatch (acts ++ zs) idx label ds only = (Some d, (idx + Z.of_nat i)%Z) ->
    apply_actions_from rmatch (acts ++ ys) idx label ds only = (Some d, (idx + Z.of_nat i)%Z)).
  { clear - Hi. revert i Hi. induction acts as [|a acts IH]; intros i Hi zs ys idx H; simpl in *; [lia|].
    destruct (act_apply rmatch a label ds only) as [d'|]; [exact H|].
    destruct i as [|i].
    - exfalso. clear IH. destruct (apply_from_spec rmatch label ds only (acts ++ zs) (idx + 1)) as [[j [b [_ [_ [_ Hj]]]]]|[_ Hj]];
        rewrite Hj in H; injection H as H1; lia || discriminate.
    - replace (idx + Z.of_nat (S i))%Z with (idx + 1 + Z.of_nat i)%Z in * by lia. eapply IH; eauto. lia. }
  intros zs ys H. apply (Hgen zs ys 0%Z). exact H.
Qed.

(** The verdict when no explicit action triggers. *)
Theorem default_verdict : forall rmatch acts label ds only,
  (forall a, In a acts -> ~ triggers rmatch a label ds only) ->
  fst (apply_actions rmatch acts label ds only) =
  Some (if existsb (in_types ["invalid"]) ds then "invalid"
        else if existsb (in_types ["blocked"]) ds then "blocked"
        else if existsb (in_types ["allocatable"]) ds then "allocatable"
        else match ds with
             | [] => "valid"
             | _ => if forallb (in_types ["activated"]) ds then "activated" else "valid"
             end).
Proof.
  intros rmatch acts label ds only H. unfold apply_actions, effective_actions. generalize 0%Z as idx.
  induction acts as [|a acts IH]; intro idx.
  - cbn [app]. unfold default_actions, apply_actions_from, act_apply, act_rule, act_variant. simpl a_match. cbn [a_not_match a_any a_all a_only andb].
    destruct (existsb (in_types ["invalid"]) ds); [reflexivity|].
    destruct (existsb (in_types ["blocked"]) ds); [reflexivity|].
    destruct (existsb (in_types ["allocatable"]) ds); [reflexivity|].
    destruct ds as [|d ds]; [reflexivity|]. cbn [negb andb].
    destruct (forallb (in_types ["activated"]) (d :: ds)); reflexivity.
  - cbn [app apply_actions_from]. destruct (act_apply_iff rmatch a label ds only) as [[Ht Ha]|[Ht Ha]].
    + exfalso. apply (H a); simpl; auto.
    + rewrite Ha. apply IH. intros b Hb. apply H. simpl. auto.
Qed.

(** The set of types matters, not its representation. *)
Theorem actions_set_semantics : forall rmatch acts label ds1 ds2 only,
  (forall d, In d ds1 <-> In d ds2) ->
  apply_actions rmatch acts label ds1 only = apply_actions rmatch acts label ds2 only.
Proof.
  intros rmatch acts label ds1 ds2 only H. unfold apply_actions. generalize 0%Z as idx.
  assert (Hne : match ds1 with [] => true | _ => false end = match ds2 with [] => true | _ => false end).
  { destruct ds1 as [|d1 ds1], ds2 as [|d2 ds2]; auto.
    - exfalso. apply (proj2 (H d2)). left. reflexivity.
    - exfalso. apply (proj1 (H d1)). left. reflexivity. }
  assert (He : forall f : option string -> bool, existsb f ds1 = existsb f ds2).
  { intro f. apply eq_true_iff_eq. rewrite !existsb_exists. split; intros [x [H1 H2]]; exists x; split; auto; apply H; exact H1. }
  assert (Hf : forall f : option string -> bool, forallb f ds1 = forallb f ds2).
  { intro f. apply eq_true_iff_eq. rewrite !forallb_forall. split; intros H' x Hx; apply H'; apply H; exact Hx. }
  induction (effective_actions acts) as [|a l IH]; intro idx; simpl; auto.
  assert (Ha : act_apply rmatch a label ds1 only = act_apply rmatch a label ds2 only).
  { unfold act_apply, act_variant. rewrite Hne. destruct (a_any a); [rewrite He; reflexivity|].
    destruct (a_all a); [rewrite Hf; reflexivity|]. destruct (a_only a); [rewrite Hf; reflexivity|]. reflexivity. }
  rewrite Ha. destruct (act_apply rmatch a label ds2 only); auto.
Qed.
