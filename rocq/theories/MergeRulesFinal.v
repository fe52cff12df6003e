(** Rules and classes of a member mean the same in the merged LGR. *)
From Coq Require Import Ascii Lia.
From Verif Require Import Base BaseFacts ClassModel ClassSpec ClassProofs RuleModel RuleSpec RuleProofs RuleTable RuleFinal MergeModel MergeContext RulesXmlModel AgainFinal MergeRulesModel MergeRulesSpec MergeRulesLike MergeRulesTable.
Open Scope string_scope.
Open Scope list_scope.

(** ** Names *)
Lemma in_set_apart : forall s t a b, scripts_apart s t -> in_set s a <> in_set t b.
Proof.
  intros s t a b [H1 H2] E. destruct (starts_chain s t b) as [H|H].
  - exists a. symmetry. exact E.
  - apply H1. exact H.
  - apply H2. exact H.
Qed.
Lemma in_set_inj : forall s a b, in_set s a = in_set s b -> a = b.
Proof.
  intros s a b H. unfold in_set in H. induction s as [|c s IH]; cbn in H; [injection H as H; exact H|]. injection H as H. apply IH. exact H.
Qed.
Lemma colon_iff : forall s, has_colon s = false <-> no_colon s.
Proof.
  induction s as [|c s IH]; [cbn; tauto|]. cbn [has_colon no_colon]. destruct (Ascii.eqb c ":") eqn:E.
  - apply Ascii.eqb_eq in E. split; [discriminate|intros [H _]; contradiction].
  - rewrite IH. apply Ascii.eqb_neq in E. tauto.
Qed.
Lemma no_colon_app : forall a b, no_colon (a ++ b)%string <-> no_colon a /\ no_colon b.
Proof. induction a as [|c a IH]; intro b; cbn; [tauto|]. rewrite IH. tauto. Qed.
Lemma no_colon_in_set : forall s n, no_colon s -> no_colon n -> no_colon (in_set s n).
Proof. intros s n H1 H2. unfold in_set. rewrite !no_colon_app. repeat split; [exact H1|discriminate|exact H2]. Qed.
Lemma not_tag_like : forall s n, (forall r, s <> String "#" r) -> ~ tag_like (in_set s n).
Proof.
  intros [|a s] n H [t E]; [discriminate|]. unfold in_set, tag_classname in E. cbn in E. injection E as E1 E2. subst a. exact (H s eq_refl).
Qed.
Lemma first_rule_In : forall n l r, first_rule n l = Some r -> In r l /\ r_name r = Some n.
Proof. intros n l r H. unfold first_rule in H. apply find_some in H. destruct H as [H1 H2]. apply ostring_eqb_eq in H2. auto. Qed.
Lemma first_class_In : forall n l c, first_class n l = Some c -> In c l /\ cls_name c = Some n.
Proof. intros n l r H. unfold first_class in H. apply find_some in H. destruct H as [H1 H2]. apply ostring_eqb_eq in H2. auto. Qed.
Lemma named_once : forall A (f : A -> option string) l a b, NoDup (map f l) -> In a l -> In b l -> f a = f b -> a = b.
Proof.
  intros A f l a b. induction l as [|x l IH]; intros N Ha Hb E; [contradiction|]. cbn [map] in N. inversion N; subst. destruct Ha as [->|Ha], Hb as [->|Hb]; auto.
  - exfalso. apply H1. rewrite E. apply in_map. exact Hb.
  - exfalso. apply H1. rewrite <- E. apply in_map. exact Ha.
Qed.
Lemma first_rule_of : forall l r n, NoDup (map r_name l) -> In r l -> r_name r = Some n -> first_rule n l = Some r.
Proof.
  intros l r n N H E. unfold first_rule. destruct (find (fun r => ostring_eqb (r_name r) (Some n)) l) as [x|] eqn:F.
  - apply find_some in F. destruct F as [F1 F2]. apply ostring_eqb_eq in F2. f_equal. apply (named_once _ r_name l); congruence.
  - exfalso. apply (find_none _ _ F) in H. rewrite E, ostring_eqb_refl in H. discriminate.
Qed.
Lemma first_class_of : forall l r n, NoDup (map cls_name l) -> In r l -> cls_name r = Some n -> first_class n l = Some r.
Proof.
  intros l r n N H E. unfold first_class. destruct (find (fun r => ostring_eqb (cls_name r) (Some n)) l) as [x|] eqn:F.
  - apply find_some in F. destruct F as [F1 F2]. apply ostring_eqb_eq in F2. f_equal. apply (named_once _ cls_name l); congruence.
  - exfalso. apply (find_none _ _ F) in H. rewrite E, ostring_eqb_refl in H. discriminate.
Qed.

(** ** Classes of tags *)
Lemma tag_lookup : forall tags l t, NoDup (dkeys tags) -> (forall c, In c l -> cls_name c <> Some (tag_classname t)) ->
  dget String.eqb (tag_classname t) (class_table tags l) = option_map (fun l => ClPlain (Some t) None None None l) (dget String.eqb t tags).
Proof.
  intros tags l t N H. unfold class_table. rewrite (stored_none _ cls_name _ class_stored) by exact H. exact (before_tag tags N t).
Qed.
Lemma tag_denotes : forall u look d t P, dget String.eqb (tag_classname t) look = option_map (fun l => ClPlain (Some t) None None None l) (dget String.eqb t d) ->
  (denotes u look (ClPlain None None (Some t) None []) P <-> forall x, P x <-> (x <= ud_max u)%N /\ code_points_of t d x).
Proof.
  intros u look d t P E. unfold code_points_of. destruct (dget String.eqb t d) as [l|] eqn:F; cbn [option_map] in E.
  - split.
    + intro H. inversion H; subst; [|congruence]. assert (c = ClPlain (Some t) None None None l) by congruence. subst c.
      match goal with D : denotes _ _ (ClPlain (Some t) None None None l) _ |- _ => inversion D; subst end. intro x. match goal with K : forall x, P x <-> _ |- _ => rewrite (K x) end. split.
      * intros [X Y]. split; [exact X|]. exists l. auto.
      * intros [X [l' [Y Z]]]. split; [exact X|]. congruence.
    + intro H. eapply D_tag; [exact E|]. apply D_literal. intro x. rewrite H. split.
      * intros [X [l' [Y Z]]]. split; [exact X|]. congruence.
      * intros [X Y]. split; [exact X|]. exists l. auto.
  - split.
    + intro H. inversion H; subst; [congruence|]. intro x. split; [intro X; exfalso; match goal with K : forall x, ~ P x |- _ => exact (K x X) end|intros [_ [l [Y _]]]; discriminate].
    + intro H. apply D_no_tag; [exact E|]. intros x X. apply H in X. destruct X as [_ [l [Y _]]]. discriminate.
Qed.

Section Clear.
  Variables (l : list smember) (tags : dict string (list N)) (m : smember).
  Hypothesis C : clear_set l tags m.
  Let S := sm_script m.
  Definition mention (b : string) : Prop := exists r, In r (sm_rules m) /\ (r_name r = Some b \/ In b (rule_refs r)).
  Definition Rc (b b' : string) : Prop := b' = in_set S b /\ b <> "" /\ no_colon b /\ ~ tag_like b.
  Definition Rr (b b' : string) : Prop := b' = in_set S b /\ followed b /\ mention b.
  Definition Rt (t t' : string) : Prop := t' = no_colon_edit S t /\ tag_kept S (sm_tags m) tags t.

  (** The classes of the merged document. *)
  Lemma class_names : forall c, In c (map snd (snd (merge_members l))) -> exists x n d, In x l /\ In d (sm_classes x) /\ cls_name d = Some n /\ n <> "" /\ ~ tag_like n /\
    c = snd (rename_class_xml (sm_script x) n d) /\ cls_name c = Some (no_colon_edit (sm_script x) n) /\ first_class n (sm_classes x) = Some d.
  Proof.
    intros c H. apply in_map_iff in H. destruct H as [p [<- H]]. apply merged_classes_from in H. destruct H as [x [n [d [X [_ [F ->]]]]]].
    destruct (first_class_In _ _ _ F) as [D1 D2]. destruct (cs_other _ _ _ C x d X D1) as [n' [N1 [N2 N3]]]. assert (n' = n) by congruence. subst n'.
    exists x, n, d. repeat (split; [assumption || reflexivity|]). split; [|exact F]. unfold rename_class_xml. cbn [snd].
    destruct d as [nm b t p l0|nm op ch]; cbn [edit_class cls_name] in *; subst nm; apply edit_some; exact N2.
  Qed.
  Lemma class_named : forall c b, no_colon b -> In c (map snd (snd (merge_members l))) -> cls_name c = Some (in_set S b) ->
    exists d, In d (sm_classes m) /\ cls_name d = Some b /\ c = snd (rename_class_xml S b d).
  Proof.
    intros c b Hb H E. destruct (class_names _ H) as [x [n [d [X [D1 [D2 [D3 [D4 [D5 [D6 D7]]]]]]]]]]. rewrite E in D6. injection D6 as D6.
    unfold no_colon_edit in D6. destruct (has_colon n) eqn:K.
    - exfalso. assert (no_colon n) by (rewrite <- D6; apply no_colon_in_set; [apply (cs_colon _ _ _ C)|exact Hb]). apply colon_iff in H0. congruence.
    - destruct (cs_scripts _ _ _ C x X) as [->|A].
      + assert (n = b) by (symmetry; apply (in_set_inj S); exact D6). subst n. exists d. auto.
      + exfalso. apply (in_set_apart _ _ n b A). symmetry. exact D6.
  Qed.
  Lemma class_there : forall d b, In d (sm_classes m) -> cls_name d = Some b -> In (snd (rename_class_xml S b d)) (map snd (snd (merge_members l))).
  Proof.
    intros d b H E. apply in_map. apply merged_classes_from. exists m, b, d. split; [apply (cs_member _ _ _ C)|]. split; [eapply class_keys; eassumption|].
    split; [apply first_class_of; [apply (cs_classes _ _ _ C)|exact H|exact E]|reflexivity].
  Qed.
  Lemma renamed_class_like : forall d b, In d (sm_classes m) -> cls_name d = Some b -> like_class Rc Rt d (snd (rename_class_xml S b d)).
  Proof.
    intros d b H E. unfold rename_class_xml. cbn [snd]. apply edit_class_like.
    - intros x Hx. pose proof (cs_class_refs _ _ _ C d x H Hx) as K. split; [apply K|]. split; [reflexivity|exact K].
    - intros t Ht. pose proof (cs_class_tags _ _ _ C d t H Ht) as K. split; [apply K|]. split; [reflexivity|exact K].
  Qed.
  Lemma class_tables : forall b b', Rc b b' -> both (like_class Rc Rt) (dget String.eqb b (own_classes m)) (dget String.eqb b' (merged_classes tags l)).
  Proof.
    intros b b' [-> [B1 [B2 B3]]]. unfold own_classes, merged_classes.
    destruct (find (fun c => ostring_eqb (cls_name c) (Some b)) (sm_classes m)) as [d|] eqn:F.
    - apply find_some in F. destruct F as [F1 F2]. apply ostring_eqb_eq in F2.
      assert (U : forall x, In x (sm_classes m) -> cls_name x = Some b -> x = d) by (intros x X Y; apply (named_once _ cls_name (sm_classes m)); [apply (cs_classes _ _ _ C)|exact X|exact F1|congruence]).
      rewrite (class_one _ _ b d F1 F2) by exact U.
      rewrite (class_one _ _ (in_set S b) (snd (rename_class_xml S b d))); [cbn [both]; apply renamed_class_like; assumption|apply class_there; assumption| |].
      + destruct (class_names _ (class_there d b F1 F2)) as [x [n [d' [X [D1 [D2 [D3 [D4 [D5 [D6 D7]]]]]]]]]].
        unfold rename_class_xml. cbn [snd]. clear - F2 B1 B2. destruct d as [nm a t p l0|nm op ch]; cbn [edit_class cls_name] in *; subst nm; rewrite (edit_some _ _ B1); unfold no_colon_edit; rewrite (proj2 (colon_iff b) B2); reflexivity.
      + intros c Hc E. destruct (class_named c b B2 Hc E) as [d2 [E1 [E2 ->]]]. rewrite (U d2 E1 E2). reflexivity.
    - rewrite class_none; [|exact B3|intros c Hc E; apply (find_none _ _ F) in Hc; rewrite E, ostring_eqb_refl in Hc; discriminate].
      rewrite class_none; [exact I|apply not_tag_like; apply (cs_hash _ _ _ C m (cs_member _ _ _ C))|]. intros c Hc E. destruct (class_named c b B2 Hc E) as [d [E1 [E2 _]]].
      apply (find_none _ _ F) in E1. rewrite E2, ostring_eqb_refl in E1. discriminate.
  Qed.
  Lemma no_tag_name : forall c t, In c (map snd (snd (merge_members l))) -> cls_name c <> Some (tag_classname t).
  Proof.
    intros c t H E. destruct (class_names _ H) as [x [n [d [X [D1 [D2 [D3 [D4 [D5 [D6 D7]]]]]]]]]]. rewrite E in D6. injection D6 as D6. unfold no_colon_edit in D6.
    destruct (has_colon n); [apply D4; exists t; symmetry; exact D6|]. apply (not_tag_like (sm_script x) n (cs_hash _ _ _ C x X)). exists t. symmetry. exact D6.
  Qed.
  Lemma tag_tables : forall u t t' P, Rt t t' -> denotes u (own_classes m) (ClPlain None None (Some t) None []) P <-> denotes u (merged_classes tags l) (ClPlain None None (Some t') None []) P.
  Proof.
    intros u t t' P [-> [K1 K2]]. destruct (cs_keys _ _ _ C) as [N1 N2].
    rewrite (tag_denotes u (own_classes m) (sm_tags m)) by (apply tag_lookup; [exact N2|intros c Hc E; destruct (cs_class_name _ _ _ C c Hc) as [n [E1 [_ [_ E2]]]]; apply E2; exists t; congruence]).
    rewrite (tag_denotes u (merged_classes tags l) tags) by (apply tag_lookup; [exact N1|intros c Hc; apply no_tag_name; exact Hc]).
    assert (K : forall x, code_points_of t (sm_tags m) x <-> code_points_of (no_colon_edit S t) tags x).
    { apply K2; intro Y; unfold no_colon_edit.
      - apply colon_iff in Y. rewrite Y. reflexivity.
      - destruct (has_colon t) eqn:E; [reflexivity|]. apply colon_iff in E. contradiction. }
    split; intros H x; rewrite H, K; tauto.
  Qed.

  (** The rules. *)
  Lemma came_name : forall x p, In x l -> came x p -> r_name (snd p) = Some (fst p).
  Proof.
    intros x p X [s [n [r [_ [F ->]]]]]. destruct (first_rule_In _ _ _ F) as [R1 R2]. destruct (cs_rule_name _ _ _ C x r X R1) as [n' [N1 N2]]. assert (n' = n) by congruence. subst n'.
    unfold rename_rule_xml. cbn [fst snd]. destruct r as [i nm b ch]. cbn [edit_rule r_name] in *. subst nm. rewrite (edit_some _ _ N2). unfold name_in_rule. rewrite String.eqb_refl. reflexivity.
  Qed.
  Lemma came_here : forall x p b, In x l -> came x p -> mention b -> fst p = in_set S b -> exists r, In r (sm_rules m) /\ r_name r = Some b /\ b <> msr /\ p = rename_rule_xml S b r.
  Proof.
    intros x p b X [s [n [r [A [F ->]]]]] Hb E. destruct (first_rule_In _ _ _ F) as [R1 R2]. unfold rename_rule_xml in E. cbn [fst] in E. unfold rename_rule in E.
    destruct (memb String.eqb n msr_rules) eqn:K.
    - exfalso. apply (in_set_apart "Common" S n b (cs_common _ _ _ C)). exact E.
    - assert (Nm : n <> msr) by (intro; subst n; cbn in K; discriminate). destruct A as [->|A].
      + destruct (cs_scripts _ _ _ C x X) as [->|A].
        * assert (n = b) by (apply (in_set_inj S); exact E). subst n. exists r. auto.
        * exfalso. apply (in_set_apart _ _ n b A). exact E.
      + exfalso. exact (cs_asked _ _ _ C x s n X A b Hb E).
  Qed.
  Lemma rule_named : forall r b, mention b -> In r (map snd (fst (merge_members l))) -> r_name r = Some (in_set S b) ->
    exists q, In q (sm_rules m) /\ r_name q = Some b /\ r = snd (rename_rule_xml S b q).
  Proof.
    intros r b Hb H E. apply in_map_iff in H. destruct H as [p [<- H]]. apply merged_from in H; [|apply (cs_asked_name _ _ _ C)]. destruct H as [x [X Hp]].
    rewrite (came_name x p X Hp) in E. injection E as E. destruct (came_here x p b X Hp Hb E) as [q [Q1 [Q2 [_ Q3]]]]. exists q. rewrite <- Q3. auto.
  Qed.
  Lemma rule_there : forall q b, In q (sm_rules m) -> r_name q = Some b -> b <> msr -> In (snd (rename_rule_xml S b q)) (map snd (fst (merge_members l))).
  Proof.
    intros q b H E Nm. assert (K : In (rename_rule S b) (map fst (fst (merge_members l)))).
    { eapply merged_has; [apply (cs_member _ _ _ C)|apply rule_keys; exists q; auto|apply first_rule_of; [apply (cs_rules _ _ _ C)|exact H|exact E]]. }
    apply in_map_iff in K. destruct K as [p [K1 K2]]. assert (E2 : rename_rule S b = in_set S b).
    { unfold rename_rule. destruct (memb String.eqb b msr_rules) eqn:M; [|reflexivity]. apply (memb_In _ _ string_eqb_iff) in M. destruct M as [M|[]]. exfalso. apply Nm. symmetry. exact M. }
    pose proof K2 as K3. apply merged_from in K3; [|apply (cs_asked_name _ _ _ C)]. destruct K3 as [x [X Hp]].
    destruct (came_here x p b X Hp) as [q' [Q1 [Q2 [_ Q3]]]]; [exists q; auto|congruence|]. assert (q' = q) by (apply (named_once _ r_name (sm_rules m)); [apply (cs_rules _ _ _ C)|exact Q1|exact H|congruence]).
    subst q'. apply in_map_iff. exists p. split; [rewrite Q3; reflexivity|exact K2].
  Qed.
  Lemma ref_followed : forall b, followed b -> ref_in_rule S b = in_set S b.
  Proof.
    intros b [_ [_ [_ H]]]. unfold ref_in_rule. cbn [existsb msr_rules]. destruct (String.prefix "leading-combining-mark" b) eqn:E; [|reflexivity]. exfalso. apply H. apply prefix_iff in E. exact E.
  Qed.
  Lemma renamed_rule_like : forall q b, In q (sm_rules m) -> r_name q = Some b -> b <> msr -> like_rule Rr Rc Rt q (snd (rename_rule_xml S b q)).
  Proof.
    intros q b H E Nm. unfold rename_rule_xml. cbn [snd]. apply edit_rule_like.
    - intros x Hx. assert (K : followed x) by (apply (cs_rule_refs _ _ _ C q x H); [congruence|exact Hx]). rewrite (ref_followed x K). pose proof K as [K1 [K2 [K3 K4]]]. split; [exact K1|]. split; [split; [reflexivity|]|split; [reflexivity|auto]].
      split; [exact K|]. exists q. auto.
    - intros c t Hc Ht. assert (K : tag_kept S (sm_tags m) tags t) by (apply (cs_rule_tags _ _ _ C q t H); [congruence|unfold rule_tags; apply in_flat_map; exists c; auto]). split; [apply K|]. split; [reflexivity|exact K].
  Qed.
  Lemma rule_tables : forall b b', Rr b b' -> both (like_rule Rr Rc Rt) (dget String.eqb b (own_rules m)) (dget String.eqb b' (merged_rules tags l)).
  Proof.
    intros b b' [-> [B1 B2]]. unfold own_rules, merged_rules. assert (Nm : b <> msr) by (intros ->; destruct B1 as [_ [_ [_ B1]]]; apply B1; exists ""; reflexivity).
    destruct (find (fun c => ostring_eqb (r_name c) (Some b)) (sm_rules m)) as [q|] eqn:F.
    - apply find_some in F. destruct F as [F1 F2]. apply ostring_eqb_eq in F2.
      assert (U : forall x, In x (sm_rules m) -> r_name x = Some b -> x = q) by (intros x X Y; apply (named_once _ r_name (sm_rules m)); [apply (cs_rules _ _ _ C)|exact X|exact F1|congruence]).
      rewrite (rule_one _ _ b q F1 F2) by exact U.
      rewrite (rule_one _ _ (in_set S b) (snd (rename_rule_xml S b q))); [cbn [both]; apply renamed_rule_like; assumption|apply rule_there; assumption| |].
      + destruct (cs_rule_name _ _ _ C m q (cs_member _ _ _ C) F1) as [n' [N1 N2]]. assert (n' = b) by congruence. subst n'. unfold rename_rule_xml. cbn [snd]. clear - F2 N2 Nm. destruct q as [i nm a ch]. cbn [edit_rule r_name] in *. subst nm.
        rewrite (edit_some _ _ N2). unfold name_in_rule. rewrite String.eqb_refl. unfold rename_rule. destruct (memb String.eqb b msr_rules) eqn:M; [|reflexivity].
        apply (memb_In _ _ string_eqb_iff) in M. destruct M as [M|[]]. exfalso. apply Nm. symmetry. exact M.
      + intros c Hc E. destruct (rule_named c b B2 Hc E) as [d2 [E1 [E2 ->]]]. rewrite (U d2 E1 E2). reflexivity.
    - rewrite rule_none; [|intros c Hc E; apply (find_none _ _ F) in Hc; rewrite E, ostring_eqb_refl in Hc; discriminate].
      rewrite rule_none; [exact I|]. intros c Hc E. destruct (rule_named c b B2 Hc E) as [d [E1 [E2 _]]]. apply (find_none _ _ F) in E1. rewrite E2, ostring_eqb_refl in E1. discriminate.
  Qed.

  (** ** Meanings *)
  Lemma own_rule : forall r n, In r (sm_rules m) -> r_name r = Some n -> dget String.eqb n (own_rules m) = Some r.
  Proof. intros r n H E. unfold own_rules. apply rule_one; [exact H|exact E|]. intros x X Y. apply (named_once _ r_name (sm_rules m)); [apply (cs_rules _ _ _ C)|exact X|exact H|congruence]. Qed.
  Lemma own_class : forall c n, In c (sm_classes m) -> cls_name c = Some n -> dget String.eqb n (own_classes m) = Some c.
  Proof. intros r n H E. unfold own_classes. apply class_one; [exact H|exact E|]. intros x X Y. apply (named_once _ cls_name (sm_classes m)); [apply (cs_classes _ _ _ C)|exact X|exact H|congruence]. Qed.
  Lemma merged_class : forall c n, In c (sm_classes m) -> cls_name c = Some n -> exists c', dget String.eqb (in_set S n) (merged_classes tags l) = Some c' /\ like_class Rc Rt c c'.
  Proof.
    intros c n H E. destruct (cs_class_name _ _ _ C c H) as [n' [E1 [N1 [N2 N3]]]]. assert (n' = n) by congruence. subst n'.
    pose proof (class_tables n (in_set S n)) as K. rewrite (own_class c n H E) in K. destruct (dget String.eqb (in_set S n) (merged_classes tags l)) as [c'|]; [exists c'; split; [reflexivity|apply K; split; auto]|exfalso; apply K; split; auto].
  Qed.
  Lemma merged_rule : forall r n, In r (sm_rules m) -> r_name r = Some n -> n <> msr -> exists r', dget String.eqb (in_set S n) (merged_rules tags l) = Some r' /\ like_rule Rr Rc Rt r r'.
  Proof.
    intros q b F1 F2 Nm. exists (snd (rename_rule_xml S b q)). split; [|apply renamed_rule_like; assumption]. unfold merged_rules.
    assert (U : forall x, In x (sm_rules m) -> r_name x = Some b -> x = q) by (intros x X Y; apply (named_once _ r_name (sm_rules m)); [apply (cs_rules _ _ _ C)|exact X|exact F1|congruence]).
    assert (B2 : mention b) by (exists q; auto).
    apply rule_one; [apply rule_there; assumption| |].
    - destruct (cs_rule_name _ _ _ C m q (cs_member _ _ _ C) F1) as [n' [N1 N2]]. assert (n' = b) by congruence. subst n'. unfold rename_rule_xml. cbn [snd]. clear - F2 N2 Nm. destruct q as [i nm a ch]. cbn [edit_rule r_name] in *. subst nm.
      rewrite (edit_some _ _ N2). unfold name_in_rule. rewrite String.eqb_refl. unfold rename_rule. destruct (memb String.eqb b msr_rules) eqn:M; [|reflexivity].
      apply (memb_In _ _ string_eqb_iff) in M. destruct M as [M|[]]. exfalso. apply Nm. symmetry. exact M.
    - intros c Hc E. destruct (rule_named c b B2 Hc E) as [d2 [E1 [E2 ->]]]. rewrite (U d2 E1 E2). reflexivity.
  Qed.

  Theorem class_kept : forall c n, In c (sm_classes m) -> cls_name c = Some n ->
    dget String.eqb n (own_classes m) = Some c /\
    exists c', dget String.eqb (in_set (sm_script m) n) (merged_classes tags l) = Some c' /\
    forall u P, denotes u (merged_classes tags l) c' P <-> denotes u (own_classes m) c P.
  Proof.
    intros c n H E. split; [exact (own_class c n H E)|]. destruct (merged_class c n H E) as [c' [K1 K2]]. exists c'. split; [exact K1|]. intros u P. symmetry.
    apply (denotes_two u _ _ Rc Rt class_tables (tag_tables u)). exact K2.
  Qed.
  Theorem rule_kept : forall rules r n, reread (merged_rules tags l) rules -> In r (sm_rules m) -> r_name r = Some n -> n <> msr ->
    dget String.eqb n (own_rules m) = Some r /\
    exists r', dget String.eqb (in_set (sm_script m) n) rules = Some r' /\
    (forall u, resolves_rule u (merged_classes tags l) rules r' <-> resolves_rule u (own_classes m) (own_rules m) r) /\
    (forall u label anchor index, rule_verdict u (merged_classes tags l) rules r' label anchor index <-> rule_verdict u (own_classes m) (own_rules m) r label anchor index).
  Proof.
    intros rules r n R H E Nm. split; [exact (own_rule r n H E)|]. destruct (merged_rule r n H E Nm) as [r1 [K1 K2]].
    pose proof (R (in_set S n)) as B. rewrite K1 in B. destruct (dget String.eqb (in_set S n) rules) as [r'|] eqn:K0; [|contradiction]. cbn [both] in B. exists r'. split; [exact K0|]. split.
    - intro u. rewrite <- (reread_resolves u (merged_classes tags l) _ _ R _ _ B). symmetry. exact (resolves_two u _ _ _ _ Rr Rc Rt class_tables (tag_tables u) rule_tables _ _ K2).
    - intros u label anchor index. rewrite <- (reread_verdict u (merged_classes tags l) _ _ R _ _ label anchor index B). symmetry. exact (verdict_two u _ _ _ _ Rr Rc Rt class_tables (tag_tables u) rule_tables _ _ _ _ _ K2).
  Qed.
  Theorem answer_kept : forall u obj obj' rules r n, reread (merged_rules tags l) rules -> In r (sm_rules m) -> r_name r = Some n -> n <> msr ->
    shaped_table (own_classes m) -> good_rules u (own_classes m) (own_rules m) -> owned_rules obj (own_rules m) ->
    shaped_table (merged_classes tags l) -> good_rules u (merged_classes tags l) rules -> owned_rules obj' rules ->
    resolves_rule u (own_classes m) (own_rules m) r ->
    exists r', dget String.eqb (in_set (sm_script m) n) rules = Some r' /\
    forall k k' label anchor index, used u (own_classes m) (own_rules m) obj k -> used u (merged_classes tags l) rules obj' k' ->
      length label <= max_label -> (anchor = None -> ~ In 37%N label) -> index <= length label ->
      exists d, forall f, d <= f -> exists b,
        snd (rule_matches u (own_classes m) (own_rules m) f r label anchor index k) = Ok b /\
        snd (rule_matches u (merged_classes tags l) rules f r' label anchor index k') = Ok b.
  Proof.
    intros u obj obj' rules r n R H E Nm S1 G1 O1 S2 G2 O2 V. destruct (rule_kept rules r n R H E Nm) as [K0 [r' [K1 [K2 K3]]]]. exists r'. split; [exact K1|]. intros k k' w a i U1 U2 Hl Ha Hi.
    destruct (rule_meaning u _ _ obj O1 r k w a i S1 G1 (G1 _ _ K0) (O1 _ _ K0) U1 V Hl Ha Hi) as [d1 D1].
    destruct (rule_meaning u _ _ obj' O2 r' k' w a i S2 G2 (G2 _ _ K1) (O2 _ _ K1) U2 (proj2 (K2 u) V) Hl Ha Hi) as [d2 D2].
    exists (Nat.max d1 d2). intros f Hf. destruct (D1 f) as [b1 [B1 V1]]; [lia|]. destruct (D2 f) as [b2 [B2 V2]]; [lia|]. exists b1. split; [exact B1|]. rewrite B2. f_equal.
    rewrite (K3 u w a i) in V2. destruct b1, b2; auto; exfalso.
    - assert (false = true) by (apply V2, V1; reflexivity). discriminate.
    - assert (false = true) by (apply V1, V2; reflexivity). discriminate.
  Qed.
End Clear.
