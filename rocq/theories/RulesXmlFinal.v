(** Everything a rule can say is read; what is reported. *)
From Coq Require Import Ascii.
From Verif Require Import Base BaseFacts UtilsModel UtilsProofs ClassModel ClassSpec ClassProofs RuleModel ActionModel Rfc7940Model SerialModel
  RulesXmlModel RulesXmlSpec RulesXmlClass RulesXmlRule.
Open Scope string_scope.
Open Scope list_scope.

Section NoDatabase.
  Variable look : table.
  Variable rules : rtable.
  Variable fuel : nat.
  Notation parse_helper := (parse_helper None look rules fuel).
  Notation parse_items := (parse_items None look rules fuel).
  Notation parse_rule_body := (parse_rule_body None look rules fuel).

  Lemma unknown_read : forall db e s, unknown rule_names e -> RulesXmlModel.parse_helper db look rules fuel e s = Ok (unhandled s, None).
  Proof.
    intros db e s H. apply unknown_iff in H. destruct H as [[H1 [H2 [H3 [H4 [H5 [H6 [H7 [H8 H9]]]]]]]] H]. rewrite parse_helper_eq. cbv zeta.
    rewrite H1, H2, H3, H4, H5, H6, H7, H8, H9, H. reflexivity.
  Qed.
  Definition complete (e : xelem) : Prop := forall m, matcher_of e m -> forall s, exists s' m', parse_helper e s = Ok (s', Some m') /\ same_matcher m m'.
  Lemma items_complete : forall l, Forall complete l -> forall ms, matchers_of l ms ->
    forall s, exists s' ms', parse_items false l s = Ok (s', ms') /\ Forall2 same_matcher ms ms'.
  Proof.
    intros l H. induction H as [|e l He Hl IH]; intros ms K s; inversion K as [|e0 l0 ms0 U K'|e0 l0 m ms0 M K']; subst.
    - exists s, []. split; [reflexivity|constructor].
    - cbn [RulesXmlRule.parse_items]. rewrite (unknown_read None _ _ U). cbn [bind fst snd]. apply IH. exact K'.
    - destruct (He m M s) as [s1 [m' [E S]]]. destruct (IH _ K' s1) as [s2 [ms' [E2 S2]]]. exists s2, (m' :: ms').
      cbn [RulesXmlRule.parse_items]. rewrite E. cbn [bind fst snd]. rewrite E2. split; [reflexivity|constructor; assumption].
  Qed.
  Lemma items_unknown : forall l, Forall (unknown rule_names) l -> forall refuse s, exists s', parse_items refuse l s = Ok (s', []).
  Proof.
    intros l H. induction H as [|e l He Hl IH]; intros refuse s; [eexists; reflexivity|]. cbn [RulesXmlRule.parse_items]. rewrite (unknown_read None _ _ He). cbn [bind fst snd]. apply IH.
  Qed.
  Lemma body_complete : forall e, Forall complete (x_children e) -> forall r, rule_of e r -> forall s, exists s' r', parse_rule_body e s = Ok (s', r') /\ same_rule r r'.
  Proof.
    intros e IH r H s. unfold RulesXmlRule.parse_rule_body. destruct H as [e id l T E M|e id b T E En U].
    - rewrite E. destruct (items_complete _ IH _ M (mkRead (S (rd_next s)) (rd_cache s) (rd_results s))) as [s1 [ms' [E1 S1]]].
      exists s1, (Rule (rd_next s) (x_get e "name") None ms'). destruct (x_get e "name"); cbn [new_rule bind r_by_ref r_id r_name]; rewrite E1; cbn [bind fst snd precalculate];
        (split; [reflexivity|constructor; exact S1]).
    - rewrite E, En. cbn [new_rule bind r_by_ref r_id r_name]. destruct (items_unknown _ U true (mkRead (S (rd_next s)) (rd_cache s) (rd_results s))) as [s1 E1].
      rewrite E1. cbn [bind fst snd precalculate]. eexists. eexists. split; [reflexivity|]. constructor. constructor.
  Qed.
  Lemma class_of_tag : forall e c, class_of e c -> lgr_elem "class" e \/ exists op, lgr_elem (comb_name op) e.
  Proof. intros e c H. destruct H; eauto. Qed.
  Ltac other T := repeat match goal with |- context [has_tag ?n ?e] => rewrite (has_tag_other _ n _ T) by discriminate end.
  Theorem helper_complete : forall e, complete e.
  Proof.
    intro e. induction e as [sp n a t ch IH] using xelem_induct. set (e := XElem sp n a t ch). change ch with (x_children e) in IH. clearbody e.
    intros m H s. rewrite parse_helper_eq. cbv zeta. destruct H as [e T|e T|e T|e k T K|e l k T L K|e c k C K|e l k T M K|e l T M|e l T M|e r k R K].
    - rewrite (proj2 (has_tag_iff _ _) T). eexists. eexists. split; [reflexivity|]. constructor. exact I.
    - rewrite (has_tag_other _ "anchor" _ T), (has_tag_other _ "any" _ T), (has_tag_other _ "char" _ T), (has_tag_other _ "choice" _ T), (has_tag_other _ "end" _ T),
        (has_tag_other _ "look-ahead" _ T), (has_tag_other _ "look-behind" _ T) by discriminate. rewrite (proj2 (has_tag_iff _ _) T). eexists. eexists. split; [reflexivity|]. constructor. exact I.
    - rewrite (has_tag_other _ "anchor" _ T), (has_tag_other _ "any" _ T), (has_tag_other _ "char" _ T), (has_tag_other _ "choice" _ T) by discriminate.
      rewrite (proj2 (has_tag_iff _ _) T). eexists. eexists. split; [reflexivity|]. constructor. exact I.
    - rewrite (has_tag_other _ "anchor" _ T) by discriminate. rewrite (proj2 (has_tag_iff _ _) T). apply read_count_iff in K. rewrite K.
      eexists. eexists. split; [reflexivity|]. constructor. exact I.
    - rewrite (has_tag_other _ "anchor" _ T), (has_tag_other _ "any" _ T) by discriminate. rewrite (proj2 (has_tag_iff _ _) T). apply read_count_iff in K. rewrite K.
      apply elem_cps_iff in L. rewrite L. eexists. eexists. split; [reflexivity|]. constructor. exact I.
    - destruct (proj2 (class_reading e) c C) as [c' [Ec Sc]]. pose proof (class_of_tag _ _ C) as T. pose proof (proj2 (class_tag_iff e) T) as T'.
      assert (O : forall q, (forall op, q <> comb_name op) -> q <> "class" -> has_tag q e = false).
      { intros q Q1 Q2. apply has_tag_false. intro Q. destruct T as [T|[op T]]; [apply Q2|apply (Q1 op)]; exact (lgr_elem_fun _ _ _ Q T). }
      rewrite !O by (try discriminate; intros []; discriminate). rewrite T', Ec. apply read_count_iff in K. rewrite K.
      eexists. eexists. split; [reflexivity|]. constructor. exact Sc.
    - rewrite (has_tag_other _ "anchor" _ T), (has_tag_other _ "any" _ T), (has_tag_other _ "char" _ T) by discriminate.
      rewrite (proj2 (has_tag_iff _ _) T). apply read_count_iff in K. rewrite K. destruct (items_complete _ IH _ M s) as [s1 [ms' [E1 S1]]]. rewrite E1.
      eexists. eexists. split; [reflexivity|]. constructor. exact S1.
    - rewrite (has_tag_other _ "anchor" _ T), (has_tag_other _ "any" _ T), (has_tag_other _ "char" _ T), (has_tag_other _ "choice" _ T), (has_tag_other _ "end" _ T) by discriminate.
      rewrite (proj2 (has_tag_iff _ _) T). destruct (items_complete _ IH _ M s) as [s1 [ms' [E1 S1]]]. rewrite E1.
      eexists. eexists. split; [reflexivity|]. constructor. exact S1.
    - rewrite (has_tag_other _ "anchor" _ T), (has_tag_other _ "any" _ T), (has_tag_other _ "char" _ T), (has_tag_other _ "choice" _ T), (has_tag_other _ "end" _ T),
        (has_tag_other _ "look-ahead" _ T) by discriminate. rewrite (proj2 (has_tag_iff _ _) T). destruct (items_complete _ IH _ M s) as [s1 [ms' [E1 S1]]]. rewrite E1.
      eexists. eexists. split; [reflexivity|]. constructor. exact S1.
    - assert (T : lgr_elem "rule" e) by (destruct R; assumption).
      rewrite (has_tag_other _ "anchor" _ T), (has_tag_other _ "any" _ T), (has_tag_other _ "char" _ T), (has_tag_other _ "choice" _ T), (has_tag_other _ "end" _ T),
        (has_tag_other _ "look-ahead" _ T), (has_tag_other _ "look-behind" _ T), (has_tag_other _ "start" _ T) by discriminate. rewrite (proj2 (has_tag_iff _ _) T).
      apply read_count_iff in K. rewrite K. destruct (body_complete e IH r R s) as [s1 [r' [E1 S1]]]. rewrite E1. eexists. eexists. split; [reflexivity|]. constructor. exact S1.
  Qed.
  Theorem rule_readable : forall e r s, rule_of e r -> exists s' r', parse_rule None look rules fuel e s = Ok (s', r') /\ same_rule r r'.
  Proof.
    intros e r s H. assert (T : lgr_elem "rule" e) by (destruct H; assumption). rewrite (parse_rule_eq None look rules fuel e s T).
    apply body_complete; [|exact H]. rewrite Forall_forall. intros x _. apply helper_complete.
  Qed.
End NoDatabase.

(** ** What is reported *)
Lemma report_idem : forall r t, report_error (report_error r t) t = report_error r t.
Proof.
  intros r t. unfold report_error, add_test_result. cbn [negb orb]. apply (dset_same _ string_eqb_iff). rewrite (dget_dset _ string_eqb_iff). rewrite String.eqb_refl. reflexivity.
Qed.
Section Report.
  Variable db : option unidb.
  Variable look : table.
  Variable rules : rtable.
  Variable fuel : nat.
  Notation parse_helper := (parse_helper db look rules fuel).
  Notation parse_items := (parse_items db look rules fuel).
  Notation parse_rule_body := (parse_rule_body db look rules fuel).
  Lemma precalculate_results : forall r s s', precalculate db look rules fuel r s = Ok s' -> rd_results s' = rd_results s /\ rd_next s' = rd_next s.
  Proof.
    intros r s s' H. unfold precalculate in H. destruct db as [u|]; [|injection H as <-; auto].
    destruct (rpat u look rules fuel true r (rd_cache s)) as [k1 [x|]]; cbn [bind] in H; [|discriminate].
    destruct (rpat u look rules fuel false r k1) as [k2 [y|]]; cbn [bind] in H; [|discriminate]. injection H as <-. auto.
  Qed.
  Definition reports_well (e : xelem) : Prop := forall s s' o, parse_helper e s = Ok (s', o) -> reports_of (unknown rule_names e \/ passes_over e) s s'.
  Lemma items_report : forall l, Forall reports_well l -> forall refuse s s' ms, parse_items refuse l s = Ok (s', ms) ->
    reports_of (exists x, In x l /\ (unknown rule_names x \/ passes_over x)) s s'.
  Proof.
    intros l H. induction H as [|e l He Hl IH]; intros refuse s s' ms K; cbn [RulesXmlRule.parse_items] in K.
    - injection K as <- <-. right. split; [intros [x [[] _]]|reflexivity].
    - destruct (parse_helper e s) as [[s1 o]|] eqn:E; cbn [bind fst snd] in K; [|discriminate]. apply He in E.
      assert (K' : exists ms', parse_items refuse l s1 = Ok (s', ms')).
      { destruct o as [m|]; [|eauto]. destruct refuse; [discriminate|]. destruct (parse_items false l s1) as [[s2 ms2]|]; cbn [bind fst snd] in K; [|discriminate]. injection K as <- <-. eauto. }
      destruct K' as [ms' K']. apply IH in K'. unfold reports_of in *. destruct E as [[U E]|[U E]]; destruct K' as [[V F]|[V F]].
      + left. split; [exists e; split; [left; reflexivity|exact U]|]. rewrite F, E. apply report_idem.
      + left. split; [exists e; split; [left; reflexivity|exact U]|]. congruence.
      + left. split; [|congruence]. destruct V as [x [X1 X2]]. exists x. split; [right; exact X1|exact X2].
      + right. split; [|congruence]. intros [x [[<-|X1] X2]]; [contradiction|]. apply V. exists x. auto.
  Qed.
  Lemma passes_container : forall e, (lgr_elem "rule" e \/ lgr_elem "choice" e \/ lgr_elem "look-ahead" e \/ lgr_elem "look-behind" e) ->
    forall s s', reports_of (exists x, In x (x_children e) /\ (unknown rule_names x \/ passes_over x)) s s' -> reports_of (unknown rule_names e \/ passes_over e) s s'.
  Proof.
    intros e T s s' [[[x [X1 X2]] E]|[N E]]; [left|right]; (split; [|exact E]).
    - right. exact (here_below e x T X1 X2).
    - intros [U|P].
      + apply unknown_iff in U. destruct U as [U _]. destruct T as [T|[T|[T|T]]]; apply has_tag_iff in T; destruct U as [H1 [H2 [H3 [H4 [H5 [H6 [H7 [H8 H9]]]]]]]]; congruence.
      + inversion P as [e0 x T' X1 X2]; subst e0. apply N. exists x. auto.
  Qed.
  Lemma no_passing : forall e n, lgr_elem n e -> In n rule_names -> n <> "rule" -> n <> "choice" -> n <> "look-ahead" -> n <> "look-behind" -> ~ (unknown rule_names e \/ passes_over e).
  Proof.
    intros e n T Hn N1 N2 N3 N4 [[U|U]|P].
    - exact (U (proj1 T)).
    - apply U. rewrite (proj2 T). exact Hn.
    - inversion P as [e0 x T' X1 X2]; subst e0. destruct T' as [T'|[T'|[T'|T']]]; pose proof (lgr_elem_fun _ _ _ T T'); contradiction.
  Qed.
  Theorem helper_report : forall e, reports_well e.
  Proof.
    intro e. induction e as [sp n a t ch IH] using xelem_induct. set (e := XElem sp n a t ch). change ch with (x_children e) in IH. clearbody e.
    intros s s' o H. rewrite parse_helper_eq in H. cbv zeta in H.
    destruct (has_tag "anchor" e) eqn:T1; [apply has_tag_iff in T1; injection H as <- <-; right; split; [apply (no_passing e _ T1); cbn; solve [tauto|discriminate]|reflexivity]|].
    destruct (has_tag "any" e) eqn:T2; [apply has_tag_iff in T2; injection H as <- <-; right; split; [apply (no_passing e _ T2); cbn; solve [tauto|discriminate]|reflexivity]|].
    destruct (has_tag "char" e) eqn:T3.
    { apply has_tag_iff in T3. destruct (elem_cps e) as [l|]; cbn [bind] in H; [|discriminate]. injection H as <- <-. right; split; [apply (no_passing e _ T3); cbn; solve [tauto|discriminate]|reflexivity]. }
    destruct (has_tag "choice" e) eqn:T4.
    { apply has_tag_iff in T4. destruct (parse_items false (x_children e) s) as [[s1 l]|] eqn:E; cbn [bind fst snd] in H; [|discriminate]. injection H as <- <-.
      apply passes_container; [tauto|]. exact (items_report _ IH _ _ _ _ E). }
    destruct (has_tag "end" e) eqn:T5; [apply has_tag_iff in T5; injection H as <- <-; right; split; [apply (no_passing e _ T5); cbn; solve [tauto|discriminate]|reflexivity]|].
    destruct (has_tag "look-ahead" e) eqn:T6.
    { apply has_tag_iff in T6. destruct (parse_items false (x_children e) s) as [[s1 l]|] eqn:E; cbn [bind fst snd] in H; [|discriminate]. injection H as <- <-.
      apply passes_container; [tauto|]. exact (items_report _ IH _ _ _ _ E). }
    destruct (has_tag "look-behind" e) eqn:T7.
    { apply has_tag_iff in T7. destruct (parse_items false (x_children e) s) as [[s1 l]|] eqn:E; cbn [bind fst snd] in H; [|discriminate]. injection H as <- <-.
      apply passes_container; [tauto|]. exact (items_report _ IH _ _ _ _ E). }
    destruct (has_tag "start" e) eqn:T8; [apply has_tag_iff in T8; injection H as <- <-; right; split; [apply (no_passing e _ T8); cbn; solve [tauto|discriminate]|reflexivity]|].
    destruct (has_tag "rule" e) eqn:T9.
    { apply has_tag_iff in T9. unfold RulesXmlRule.parse_rule_body in H. destruct (new_rule _ _ _) as [r|]; cbn [bind] in H; [|discriminate].
      destruct (parse_items _ (x_children e) _) as [[s1 l]|] eqn:E in H; cbn [bind fst snd] in H; [|discriminate].
      destruct (precalculate _ _ _ _ _ s1) as [s2|] eqn:E2; cbn [bind fst snd] in H; [|discriminate]. injection H as <- <-.
      apply precalculate_results in E2. destruct E2 as [E2 _]. apply (items_report _ IH) in E. apply passes_container; [tauto|].
      unfold reports_of in *. cbn [rd_results] in E. rewrite E2. exact E. }
    destruct (class_tag e) eqn:T10.
    { destruct (parse_class e) as [c|] eqn:E; cbn [bind] in H; [|discriminate]. injection H as <- <-. right. split; [|reflexivity].
      apply class_tag_iff in T10. destruct T10 as [T|[op T]]; [apply (no_passing e _ T); cbn; solve [tauto|discriminate]|destruct op; apply (no_passing e _ T); cbn; solve [tauto|discriminate]]. }
    injection H as <- <-. left. split; [left; apply unknown_iff; tauto|reflexivity].
  Qed.
  Theorem rule_report : forall e s s' r, lgr_elem "rule" e -> parse_rule db look rules fuel e s = Ok (s', r) -> reports_of (passes_over e) s s'.
  Proof.
    intros e s s' r T H. unfold parse_rule in H. destruct (parse_helper e s) as [[s1 o]|] eqn:E; cbn [bind fst snd] in H; [|discriminate].
    pose proof (helper_report e _ _ _ E) as R. destruct o as [[]|]; try discriminate. injection H as <- <-.
    assert (N : ~ unknown rule_names e) by (intros [U|U]; [exact (U (proj1 T))|apply U; rewrite (proj2 T); cbn; tauto]).
    unfold reports_of in *. destruct R as [[[U|U] R]|[U R]]; [contradiction|left; auto|right; tauto].
  Qed.
End Report.
