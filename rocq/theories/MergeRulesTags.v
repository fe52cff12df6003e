(** Tags in the merged LGR: a tag of a member, under its new name, is carried
    by the code points that carry it in the member. *)
From Coq Require Import Ascii Permutation.
From Verif Require Import Base BaseFacts ClassModel ClassSpec RuleModel RuleSpec CharModel RepSpec RepProofs LgrModel LgrSpec CompareModel HarmonizeModel MergeModel MergeSpec MergeFinal MergeRulesModel MergeRulesSpec MergeRulesTable MergeRulesFinal.
Open Scope string_scope.
Open Scope list_scope.

Theorem tags_kept : forall on ov, any_order on -> any_order ov -> forall l st, (forall m, In m l -> tidy (mb_lgr m)) -> merge_lgr_set on ov l = Ok st ->
  forall m t, In m l -> no_colon (get_script m) -> no_colon t ->
  (forall x, In x l -> x = m \/ scripts_apart (get_script x) (get_script m)) ->
  (forall x f y e, In x l -> mb_extensions x = Some f -> In e (f y) -> ~ no_colon e) ->
  forall c,
    (exists ch, lookup (lg_rep (mg_lgr st)) c = Some ch /\ In (in_set (get_script m) t) (ch_tags ch)) <->
    (exists ch, lookup (lg_rep (mb_lgr m)) c = Some ch /\ In t (ch_tags ch)).
Proof.
  intros on ov On Ov l st T E m t M Hs Ht Ha He c. split.
  - intros [ch [L I]]. apply (tags_merged on ov On Ov l st T E c ch _ L) in I. destruct I as [x [X [d [D1 [[y [Y1 Y2]]|[f [y [F1 [F2 F3]]]]]]]]].
    + destruct (has_colon y) eqn:K.
      * exfalso. assert (N : no_colon y) by (rewrite <- Y2; apply no_colon_in_set; assumption). apply colon_iff in N. congruence.
      * destruct (Ha x X) as [->|A]; [|exfalso; apply (in_set_apart _ _ y t A); symmetry; exact Y2]. exists d. split; [exact D1|]. apply in_set_inj in Y2. subst y. exact Y1.
    + exfalso. apply (He x f y _ X F1 F3). apply no_colon_in_set; assumption.
  - intros [d [D1 D2]]. destruct (lookup (lg_rep (mg_lgr st)) c) as [ch|] eqn:L.
    + exists ch. split; [reflexivity|]. apply (tags_merged on ov On Ov l st T E c ch _ L). exists m. split; [exact M|]. exists d. split; [exact D1|]. left. exists t. split; [exact D2|].
      rewrite (proj2 (colon_iff t) Ht). reflexivity.
    + exfalso. apply (proj2 (code_points_merged on ov Ov l st T E c)); [|exact L]. exists m. split; [exact M|]. unfold has_cp. rewrite D1. discriminate.
Qed.

(** The names are those of the model of merge_set.py. *)
Section Names.
  Theorem rule_names_agree : forall sp s m acc, map fst (merge_rules_xml sp s m acc) = merge_rules sp s (dkeys (own_rules m)) (map fst acc).
  Proof.
    intros sp s m acc. unfold merge_rules_xml, merge_rules, own_rules.
    assert (K : dkeys (rule_table (own_classes m) (sm_rules m)) = dkeys (rule_table [] (sm_rules m))).
    { unfold rule_table. f_equal. assert (G : forall t, fold_left (fun t r => fst (RuleModel.add_rule (own_classes m) t r true)) (sm_rules m) t = fold_left (fun t r => fst (RuleModel.add_rule [] t r true)) (sm_rules m) t).
      { induction (sm_rules m) as [|r l IH]; intro t; [reflexivity|]. cbn [fold_left]. rewrite !rule_stored. apply IH. }
      apply G. }
    rewrite K. assert (A : forall n, In n (dkeys (rule_table [] (sm_rules m))) -> first_rule n (sm_rules m) <> None).
    { intros n H. apply rule_keys in H. destruct H as [r [R1 R2]]. unfold first_rule. intro F. apply (find_none _ _ F) in R1. rewrite R2, ostring_eqb_refl in R1. discriminate. }
    clear K. revert acc. induction (dkeys (rule_table [] (sm_rules m))) as [|n ks IH]; intro acc; [reflexivity|]. cbn [fold_left]. rewrite IH by (intros x X; apply A; right; exact X). f_equal.
    destruct (truthy sp && negb (ostring_eqb sp (Some n)))%bool; [reflexivity|]. specialize (A n (or_introl eq_refl)). destruct (first_rule n (sm_rules m)) as [r|]; [|contradiction]. cbv zeta.
    unfold rename_rule_xml. cbn [fst]. destruct (memb String.eqb (rename_rule s n) (map fst acc)); [reflexivity|]. rewrite map_app. reflexivity.
  Qed.
End Names.
