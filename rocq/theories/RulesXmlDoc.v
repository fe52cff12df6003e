(** Whole <rules> sections: what is read, what is refused. *)
From Coq Require Import Ascii.
From Verif Require Import RuleSpec.
From Verif Require Import Base BaseFacts UtilsModel UtilsProofs ClassModel ClassSpec ClassProofs ClassFinal RuleModel RuleTable ActionModel
  Rfc7940Model SerialModel RulesXmlModel RulesXmlSpec RulesXmlClass RulesXmlRule RulesXmlFinal RulesXmlSection.
Open Scope string_scope.
Open Scope list_scope.

(** ** The kinds of elements *)
Lemma named_in_iff : forall names e, named_in names e = true <-> exists n, In n names /\ lgr_elem n e.
Proof.
  intros names e. unfold named_in, is_lgr, lgr_elem. split.
  - intro H. apply andb_prop in H. destruct H as [H1 H2]. destruct (x_space e) eqn:Es; try discriminate. apply existsb_exists in H2. destruct H2 as [n [H2 H3]].
    apply String.eqb_eq in H3. exists n. auto.
  - intros [n [H1 [H2 H3]]]. rewrite H2. cbn [andb]. apply existsb_exists. exists n. split; [exact H1|]. apply String.eqb_eq. exact H3.
Qed.
Lemma named_class : forall e, named_in class_names e = class_tag e.
Proof.
  intro e. apply Bool.eq_iff_eq_true. rewrite named_in_iff, class_tag_iff. split.
  - intros [n [Hn T]]. cbn in Hn. destruct Hn as [<-|[<-|[<-|[<-|[<-|[<-|[]]]]]]]; [left; exact T|right..];
      [exists Complement|exists Union|exists Intersection|exists Difference|exists SymmetricDifference]; exact T.
  - intros [T|[op T]]; [exists "class"; split; [cbn; tauto|exact T]|]. exists (comb_name op). split; [destruct op; cbn; tauto|exact T].
Qed.
Lemma named_one : forall n e, named_in [n] e = has_tag n e.
Proof.
  intros n e. apply Bool.eq_iff_eq_true. rewrite named_in_iff, has_tag_iff. split; [intros [m [[<-|[]] T]]; exact T|]. intro T. exists n. split; [left; reflexivity|exact T].
Qed.
Lemma unknown_section : forall e, unknown section_names e <-> class_tag e = false /\ has_tag "rule" e = false /\ has_tag "action" e = false.
Proof.
  intro e. rewrite <- named_class, <- !named_one, <- !Bool.not_true_iff_false, !named_in_iff. unfold unknown, section_names, lgr_elem. split.
  - intro H. repeat split; intros [n [Hn [T1 T2]]]; destruct H as [H|H]; try contradiction; apply H; rewrite T2; apply in_or_app; cbn in *; tauto.
  - intros [H1 [H2 H3]]. destruct (x_space e) eqn:Es; [|left; congruence..]. right. intro H. apply in_app_or in H. destruct H as [H|[H|[H|[]]]].
    + apply H1. eexists. split; [exact H|auto].
    + apply H2. exists "rule". cbn. auto.
    + apply H3. exists "action". cbn. auto.
Qed.
Lemma tags_apart : forall e, class_tag e = true -> has_tag "rule" e = false /\ has_tag "action" e = false.
Proof.
  intros e H. apply class_tag_iff in H. destruct H as [T|[op T]]; split; apply (has_tag_other _ _ _ T); try discriminate; destruct op; discriminate.
Qed.
Lemma rule_not_action : forall e, has_tag "rule" e = true -> has_tag "action" e = false.
Proof. intros e H. apply has_tag_iff in H. apply (has_tag_other _ _ _ H). discriminate. Qed.

Lemma process_app : forall db fuel force l l' g s, process_rules db fuel force (l ++ l') g s =
  bind (process_rules db fuel force l g s) (fun p => process_rules db fuel force l' (fst p) (snd p)).
Proof.
  intros db fuel force. induction l as [|e l IH]; intros l' g s; [reflexivity|]. cbn [app process_rules].
  destruct (read_elem db fuel force e g s) as [[g1 s1]|]; cbn [bind fst snd]; [apply IH|reflexivity].
Qed.

(** ** One element *)
Lemma cls_name_of : forall e c, class_of e c -> cls_name c = x_get e "name".
Proof. intros e c H. destruct H; cbn [cls_name]; congruence. Qed.
Lemma r_name_of : forall e r, rule_of e r -> r_name r = x_get e "name".
Proof. intros e r H. destruct H; cbn [r_name]; congruence. Qed.
Lemma add_class_ok : forall look c force look', add_class look c force = (look', Ok tt) ->
  look' = match cls_name c with Some n => dset String.eqb n c look | None => look end /\ (force = false -> valid_class look true c).
Proof.
  intros look c force look' H. unfold add_class in H. destruct (validate_class look true c) as [[]|e] eqn:E.
  - injection H as <-. split; [reflexivity|]. intros _. apply validate_class_iff. exact E.
  - destruct force; injection H as <-; [|discriminate]. split; [reflexivity|discriminate].
Qed.
Lemma add_rule_ok : forall look rules r force rules', add_rule look rules r force = (rules', Ok tt) ->
  rules' = match r_name r with Some n => dset String.eqb n r rules | None => rules end /\ (force = false -> valid_rule look rules true r).
Proof.
  intros look rules r force rules' H. unfold add_rule in H. destruct (validate_rule look rules true r) as [[]|e] eqn:E.
  - injection H as <-. split; [reflexivity|]. intros _. apply valid_rule_iff. exact E.
  - destruct force; injection H as <-; [|discriminate]. split; [reflexivity|discriminate].
Qed.
(** What reading one element does. *)
Inductive element_read (db : option unidb) (fuel : nat) (force : bool) (e : xelem) (g : ruleset) (s : rread) : ruleset -> rread -> Prop :=
| el_class : forall c, class_tag e = true -> parse_class e = Ok c -> (force = false -> valid_class (ru_classes g) true c) ->
    element_read db fuel force e g s
      (mkRules (match x_get e "name" with Some n => dset String.eqb n c (ru_classes g) | None => ru_classes g end)
               (ru_class_names g ++ [x_get e "name"]) (ru_rules g) (ru_rule_names g) (ru_actions g)
               (ru_classes_xml g ++ [drop_ns e]) (ru_rules_xml g) (ru_actions_xml g)) s
| el_rule : forall r s', has_tag "rule" e = true -> parse_rule db (ru_classes g) (ru_rules g) fuel e s = Ok (s', r) ->
    (force = false -> valid_rule (ru_classes g) (ru_rules g) true r) ->
    element_read db fuel force e g s
      (mkRules (ru_classes g) (ru_class_names g) (match x_get e "name" with Some n => dset String.eqb n r (ru_rules g) | None => ru_rules g end)
               (ru_rule_names g ++ [x_get e "name"]) (ru_actions g) (ru_classes_xml g) (ru_rules_xml g ++ [drop_ns e]) (ru_actions_xml g)) s'
| el_action : forall a, has_tag "action" e = true -> parse_action e = Ok a ->
    element_read db fuel force e g s
      (mkRules (ru_classes g) (ru_class_names g) (ru_rules g) (ru_rule_names g) (ru_actions g ++ [a])
               (ru_classes_xml g) (ru_rules_xml g) (ru_actions_xml g ++ [drop_ns e])) s
| el_none : unknown section_names e -> element_read db fuel force e g s g (unhandled s).
Lemma read_elem_iff : forall db fuel force e g s g' s', read_elem db fuel force e g s = Ok (g', s') <-> element_read db fuel force e g s g' s'.
Proof.
  intros db fuel force e g s g' s'. unfold read_elem. split.
  - destruct (class_tag e) eqn:T1.
    { unfold read_class. destruct (parse_class e) as [c|] eqn:E; cbn [bind]; [|discriminate]. destruct (add_class (ru_classes g) c force) as [t [[]|x]] eqn:A; cbn [bind]; [|discriminate].
      intro H. injection H as <- <-. apply add_class_ok in A. destruct A as [-> V]. rewrite (cls_name_of e c (class_read e c E)). apply el_class; assumption. }
    destruct (has_tag "rule" e) eqn:T2.
    { unfold read_rule. destruct (parse_rule _ _ _ _ e s) as [[s1 r]|] eqn:E; cbn [bind fst snd]; [|discriminate].
      destruct (add_rule (ru_classes g) (ru_rules g) r force) as [t [[]|x]] eqn:A; cbn [bind]; [|discriminate].
      intro H. injection H as <- <-. apply add_rule_ok in A. destruct A as [-> V]. rewrite (r_name_of e r (rule_read _ _ _ _ e _ _ _ (proj1 (has_tag_iff _ _) T2) E)). apply el_rule; assumption. }
    destruct (has_tag "action" e) eqn:T3.
    { unfold read_action. destruct (parse_action e) as [a|] eqn:E; cbn [bind]; [|discriminate]. intro H. injection H as <- <-. apply el_action; assumption. }
    intro H. injection H as <- <-. apply el_none. apply unknown_section. auto.
  - intro H. destruct H as [c T E V|r s1 T E V|a T E|U].
    + rewrite T. unfold read_class. rewrite E. cbn [bind]. unfold add_class. rewrite (cls_name_of e c (class_read e c E)).
      destruct (validate_class (ru_classes g) true c) as [[]|x] eqn:Ev; [reflexivity|]. destruct force; [reflexivity|]. specialize (V eq_refl). apply validate_class_iff in V. congruence.
    + assert (T1 : class_tag e = false) by (destruct (class_tag e) eqn:Q; [apply tags_apart in Q; destruct Q; congruence|reflexivity]). rewrite T1, T.
      unfold read_rule. rewrite E. cbn [bind fst snd]. unfold add_rule. rewrite (r_name_of e r (rule_read _ _ _ _ e _ _ _ (proj1 (has_tag_iff _ _) T) E)).
      destruct (validate_rule (ru_classes g) (ru_rules g) true r) as [[]|x] eqn:Ev; [reflexivity|]. destruct force; [reflexivity|]. specialize (V eq_refl). apply valid_rule_iff in V. congruence.
    + assert (T1 : class_tag e = false) by (destruct (class_tag e) eqn:Q; [apply tags_apart in Q; destruct Q; congruence|reflexivity]).
      assert (T2 : has_tag "rule" e = false) by (destruct (has_tag "rule" e) eqn:Q; [apply rule_not_action in Q; congruence|reflexivity]). rewrite T1, T2, T.
      unfold read_action. rewrite E. reflexivity.
    + apply unknown_section in U. destruct U as [U1 [U2 U3]]. rewrite U1, U2, U3. reflexivity.
Qed.
Lemma process_cons : forall db fuel force e l g s g' s', process_rules db fuel force (e :: l) g s = Ok (g', s') <->
  exists g1 s1, element_read db fuel force e g s g1 s1 /\ process_rules db fuel force l g1 s1 = Ok (g', s').
Proof.
  intros db fuel force e l g s g' s'. cbn [process_rules]. split.
  - destruct (read_elem db fuel force e g s) as [[g1 s1]|] eqn:E; cbn [bind fst snd]; [|discriminate]. intro H. apply read_elem_iff in E. eauto.
  - intros [g1 [s1 [H1 H2]]]. apply read_elem_iff in H1. rewrite H1. exact H2.
Qed.

(** ** What a section gives *)
Lemma defines_nil : forall A (says : xelem -> A -> Prop) t, defines says t t [].
Proof. intros A says t n. right. split; [intros e []|reflexivity]. Qed.
Lemma defines_cons : forall A (says : xelem -> A -> Prop) t t' e c l, says e c ->
  defines says (match x_get e "name" with Some n => dset String.eqb n c t | None => t end) t' l -> defines says t t' (e :: l).
Proof.
  intros A says t t' e c l H D n. destruct (D n) as [[e' [c' [[L1 [pre [post [L2 L3]]]] [H1 H2]]]]|[H1 H2]].
  - left. exists e', c'. split; [|auto]. split; [exact L1|]. exists (e :: pre), post. split; [rewrite L2; reflexivity|exact L3].
  - destruct (x_get e "name") as [m|] eqn:En.
    + rewrite (dget_dset _ string_eqb_iff) in H2. destruct (String.eqb_spec n m) as [->|N].
      * left. exists e, c. split; [|auto]. split; [exact En|]. exists [], l. split; [reflexivity|exact H1].
      * right. split; [|exact H2]. intros x [<-|Hx]; [congruence|exact (H1 x Hx)].
    + right. split; [|exact H2]. intros x [<-|Hx]; [congruence|exact (H1 x Hx)].
Qed.
Theorem section_read : forall db fuel force l g s g' s', process_rules db fuel force l g s = Ok (g', s') ->
  defines class_of (ru_classes g) (ru_classes g') (class_elems l) /\
  ru_class_names g' = ru_class_names g ++ map (fun e => x_get e "name") (class_elems l) /\
  defines rule_of (ru_rules g) (ru_rules g') (rule_elems l) /\
  ru_rule_names g' = ru_rule_names g ++ map (fun e => x_get e "name") (rule_elems l) /\
  (exists acts, ru_actions g' = ru_actions g ++ acts /\ Forall2 action_of (action_elems l) acts) /\
  ru_classes_xml g' = ru_classes_xml g ++ map drop_ns (class_elems l) /\
  ru_rules_xml g' = ru_rules_xml g ++ map drop_ns (rule_elems l) /\
  ru_actions_xml g' = ru_actions_xml g ++ map drop_ns (action_elems l).
Proof.
  intros db fuel force. unfold class_elems, rule_elems, action_elems. induction l as [|e l IH]; intros g s g' s' H.
  - injection H as <- <-. cbn [filter map]. rewrite !app_nil_r. repeat split; try apply defines_nil. exists []. rewrite app_nil_r. split; [reflexivity|constructor].
  - apply process_cons in H. destruct H as [g1 [s1 [E H]]]. apply IH in H. cbn [filter]. rewrite named_class, !named_one. destruct E as [c T E V|r s1 T E V|a T E|U].
    + destruct (tags_apart _ T) as [T2 T3]. rewrite T, T2, T3. cbn [ru_classes ru_class_names ru_rules ru_rule_names ru_actions ru_classes_xml ru_rules_xml ru_actions_xml] in H. destruct H as [H1 [H2 [H3 [H4 [H5 [H6 [H7 H8]]]]]]]. cbn [map]. rewrite <- app_assoc in H2, H6.
      repeat split; try assumption. apply (defines_cons _ _ _ _ _ c); [apply class_read; exact E|exact H1].
    + assert (T1 : class_tag e = false) by (destruct (class_tag e) eqn:Q; [apply tags_apart in Q; destruct Q; congruence|reflexivity]).
      rewrite T1, T, (rule_not_action _ T). cbn [ru_classes ru_class_names ru_rules ru_rule_names ru_actions ru_classes_xml ru_rules_xml ru_actions_xml] in H. destruct H as [H1 [H2 [H3 [H4 [H5 [H6 [H7 H8]]]]]]]. cbn [map]. rewrite <- app_assoc in H4, H7.
      repeat split; try assumption. apply (defines_cons _ _ _ _ _ r); [exact (rule_read _ _ _ _ e _ _ _ (proj1 (has_tag_iff _ _) T) E)|exact H3].
    + assert (T1 : class_tag e = false) by (destruct (class_tag e) eqn:Q; [apply tags_apart in Q; destruct Q; congruence|reflexivity]).
      assert (T2 : has_tag "rule" e = false) by (destruct (has_tag "rule" e) eqn:Q; [apply rule_not_action in Q; congruence|reflexivity]). rewrite T1, T2, T.
      cbn [ru_classes ru_class_names ru_rules ru_rule_names ru_actions ru_classes_xml ru_rules_xml ru_actions_xml] in H. destruct H as [H1 [H2 [H3 [H4 [[acts [H5 H5']] [H6 [H7 H8]]]]]]]. cbn [map]. rewrite <- app_assoc in H5, H8.
      repeat split; try assumption. exists (a :: acts). split; [exact H5|]. constructor; [apply action_reading; exact E|exact H5'].
    + apply unknown_section in U. destruct U as [U1 [U2 U3]]. rewrite U1, U2, U3. exact H.
Qed.
Theorem section_report : forall db fuel force l g s g' s', process_rules db fuel force l g s = Ok (g', s') ->
  reports_of (exists x, In x l /\ noticed x) s s'.
Proof.
  intros db fuel force. induction l as [|e l IH]; intros g s g' s' H.
  - injection H as <- <-. right. split; [intros [x [[] _]]|reflexivity].
  - apply process_cons in H. destruct H as [g1 [s1 [E H]]]. apply IH in H.
    assert (R : reports_of (noticed e) s s1).
    { unfold noticed. destruct E as [c T E V|r s1 T E V|a T E|U].
      - right. split; [|reflexivity]. destruct (tags_apart _ T) as [T2 T3]. intros [U|[U _]]; [apply unknown_section in U; destruct U; congruence|apply has_tag_iff in U; congruence].
      - pose proof (proj1 (has_tag_iff _ _) T) as T'. destruct (rule_report _ _ _ _ e _ _ _ T' E) as [[K1 K2]|[K1 K2]]; [left; auto|right]. split; [|exact K2].
        intros [U|[_ U]]; [apply unknown_section in U; destruct U as [_ [U _]]; congruence|contradiction].
      - right. split; [|reflexivity]. intros [U|[U _]]; [apply unknown_section in U; destruct U as [_ [_ U]]; congruence|apply has_tag_iff in U; apply rule_not_action in U; congruence].
      - left. split; [left; exact U|reflexivity]. }
    unfold reports_of in *. destruct R as [[R1 R2]|[R1 R2]]; destruct H as [[K1 K2]|[K1 K2]].
    + left. split; [exists e; split; [left; reflexivity|exact R1]|]. rewrite K2, R2. apply report_idem.
    + left. split; [exists e; split; [left; reflexivity|exact R1]|congruence].
    + left. split; [|congruence]. destruct K1 as [x [X1 X2]]. exists x. split; [right; exact X1|exact X2].
    + right. split; [|congruence]. intros [x [[<-|X1] X2]]; [contradiction|]. apply K1. exists x. auto.
Qed.

(** ** When a section is accepted *)
Lemma element_readable : forall fuel e g s, readable_elem e -> exists g1 s1, element_read None fuel true e g s g1 s1.
Proof.
  intros fuel e g s [[c H]|[[r H]|[[T [a H]]|H]]].
  - destruct (class_readable e c H) as [c' E]. eexists. eexists. apply (el_class _ _ _ _ _ _ c'); [|exact E|discriminate]. apply class_tag_iff. exact (class_of_tag _ _ H).
  - destruct (rule_readable (ru_classes g) (ru_rules g) fuel e r s H) as [s1 [r' [E _]]]. eexists. eexists. eapply el_rule; [|exact E|discriminate]. apply has_tag_iff. destruct H; assumption.
  - eexists. eexists. apply (el_action _ _ _ _ _ _ a); [apply has_tag_iff; exact T|apply action_reading; exact H].
  - eexists. eexists. apply el_none. exact H.
Qed.
Lemma element_says : forall db fuel force e g s g1 s1, element_read db fuel force e g s g1 s1 -> readable_elem e.
Proof.
  intros db fuel force e g s g1 s1 H. destruct H as [c T E V|r s1 T E V|a T E|U].
  - left. exists c. apply class_read. exact E.
  - right. left. exists r. exact (rule_read _ _ _ _ e _ _ _ (proj1 (has_tag_iff _ _) T) E).
  - right. right. left. split; [apply has_tag_iff; exact T|]. exists a. apply action_reading. exact E.
  - right. right. right. exact U.
Qed.
Theorem section_forced : forall fuel l g s, (exists p, process_rules None fuel true l g s = Ok p) <-> Forall readable_elem l.
Proof.
  intros fuel. induction l as [|e l IH]; intros g s.
  - split; [constructor|]. intros _. eexists. reflexivity.
  - split.
    + intros [[g' s'] H]. apply process_cons in H. destruct H as [g1 [s1 [E H]]]. constructor; [eapply element_says; exact E|]. apply (IH g1 s1). eexists. exact H.
    + intro H. inversion H as [|? ? H1 H2]; subst. destruct (element_readable fuel e g s H1) as [g1 [s1 E]]. destruct (proj2 (IH g1 s1) H2) as [[g' s'] K].
      exists (g', s'). apply process_cons. eauto.
Qed.
Definition checked (fuel : nat) (l : list xelem) (g : ruleset) (s : rread) : Prop :=
  forall pre e post g1 s1, l = pre ++ e :: post -> process_rules None fuel true pre g s = Ok (g1, s1) ->
    (forall c, class_of e c -> valid_class (ru_classes g1) true c) /\
    (forall r, rule_of e r -> valid_rule (ru_classes g1) (ru_rules g1) true r).
Lemma element_unforced : forall fuel e g s g1 s1, element_read None fuel false e g s g1 s1 -> element_read None fuel true e g s g1 s1.
Proof. intros fuel e g s g1 s1 H. destruct H as [c T E V|r s1 T E V|a T E|U]; [apply el_class|apply el_rule|apply el_action|apply el_none]; auto; discriminate. Qed.
Lemma unforced_same : forall fuel l g s p, process_rules None fuel false l g s = Ok p -> process_rules None fuel true l g s = Ok p.
Proof.
  intros fuel. induction l as [|e l IH]; intros g s [g' s'] H; [exact H|]. apply process_cons in H. destruct H as [g1 [s1 [E H]]]. apply process_cons. exists g1, s1.
  split; [apply element_unforced; exact E|apply IH; exact H].
Qed.
Lemma same_class_sym : forall c c', same_class c c' -> same_class c' c.
Proof.
  fix F 3. intros c c' H. destruct H as [n b t p l l' H|n op l l' H]; constructor; [intro x; symmetry; apply H|].
  induction H as [|x y l l' H1 H2 IH]; constructor; [apply F; exact H1|exact IH].
Qed.
Theorem section_checked : forall fuel l g s, (exists p, process_rules None fuel false l g s = Ok p) <-> Forall readable_elem l /\ checked fuel l g s.
Proof.
  intros fuel. induction l as [|e l IH]; intros g s.
  - split; [|intros _; eexists; reflexivity]. intros _. split; [constructor|]. intros pre e post g1 s1 H. destruct pre; discriminate.
  - split.
    + intros [[g' s'] H]. apply process_cons in H. destruct H as [g1 [s1 [E H]]]. destruct (proj1 (IH g1 s1) (ex_intro _ _ H)) as [F V]. split; [constructor; [eapply element_says; exact E|exact F]|].
      intros pre x post g2 s2 El Hp. destruct pre as [|y pre]; cbn [app] in El; injection El as <- El.
      * injection Hp as <- <-. split.
        -- intros c Hc. destruct (class_readable e c Hc) as [c' Ec]. pose proof (class_of_fun e c' (class_read e c' Ec) c Hc) as S. apply (valid_class_same _ c' c _ S).
           pose proof (proj2 (class_tag_iff e) (class_of_tag e c Hc)) as T. destruct (tags_apart _ T) as [T2 T3].
           inversion E as [c0 T0 E0 V0|r s0 T0|a T0|U0]; subst; try congruence; [|apply unknown_section in U0; destruct U0; congruence].
           assert (c0 = c') by congruence. subst c0. exact (V0 eq_refl).
        -- intros r Hr. assert (T : lgr_elem "rule" e) by (destruct Hr; assumption). apply has_tag_iff in T.
           destruct (rule_readable (ru_classes g) (ru_rules g) fuel e r s Hr) as [s2 [r' [Er Sr]]].
           assert (V' : valid_rule (ru_classes g) (ru_rules g) true r').
           { inversion E as [c0 T0|r0 s0 T0 E0 V0|a T0|U0]; subst.
             - destruct (tags_apart _ T0). congruence.
             - rewrite Er in E0. injection E0 as <- <-. exact (V0 eq_refl).
             - rewrite (rule_not_action _ T) in T0. discriminate.
             - apply unknown_section in U0. destruct U0 as [_ [U0 _]]. congruence. }
           revert V'. apply valid_rule_same. clear - Sr. revert r r' Sr.
           assert (G : forall m m', same_matcher m m' -> same_matcher m' m).
           { fix F 3 with (F' (r r' : rule) (S : same_rule r r') {struct S} : same_rule r' r).
             - intros m m' S. destruct S as [m H|c c' k S|k l l' S|l l' S|l l' S|r r' k S]; [constructor; exact H|constructor; apply same_class_sym; exact S|constructor..|constructor; apply F'; exact S];
                 (induction S as [|x y l l' S1 S2 IHS]; constructor; [apply F; exact S1|exact IHS]).
             - intros r r' S. destruct S as [i i' n b l l' S]. constructor. induction S as [|x y l l' S1 S2 IHS]; constructor; [apply F; exact S1|exact IHS]. }
           intros r r' S. destruct S as [i i' n b l l' S]. constructor. induction S as [|x y l l' S1 S2 IHS]; constructor; [apply G; exact S1|exact IHS].
      * apply process_cons in Hp. destruct Hp as [g3 [s3 [E3 Hp]]]. pose proof (element_unforced _ _ _ _ _ _ E) as E'. apply read_elem_iff in E3, E'.
        assert (Eq : g3 = g1 /\ s3 = s1) by (split; congruence). destruct Eq; subst g3 s3. exact (V pre x post g2 s2 El Hp).
    + intros [F V]. inversion F as [|? ? F1 F2]; subst. destruct (element_readable fuel e g s F1) as [g1 [s1 E]].
      destruct (V [] e l g s eq_refl eq_refl) as [V1 V2].
      assert (E' : element_read None fuel false e g s g1 s1).
      { destruct E as [c T E _|r s1 T E _|a T E|U]; [apply el_class|apply el_rule|apply el_action|apply el_none]; auto; intros _; [apply V1; apply class_read; exact E|].
        apply V2. exact (rule_read _ _ _ _ e _ _ _ (proj1 (has_tag_iff _ _) T) E). }
      assert (K : exists p, process_rules None fuel false l g1 s1 = Ok p).
      { apply IH. split; [exact F2|]. intros pre x post g2 s2 El Hp. apply (V (e :: pre) x post g2 s2); [rewrite El; reflexivity|]. apply process_cons. eauto. }
      destruct K as [[g' s'] K]. exists (g', s'). apply process_cons. eauto.
Qed.

Lemma defines_domain : forall A (says : xelem -> A -> Prop) t0 t t' l, defines says t0 t l -> defines says t0 t' l ->
  forall n, dget String.eqb n t <> None -> dget String.eqb n t' <> None.
Proof.
  intros A says t0 t t' l D D' n H. destruct (D' n) as [[e [c [_ [_ K]]]]|[K1 K2]]; [congruence|].
  destruct (D n) as [[e [c [[L1 [pre [post [L2 _]]]] _]]]|[_ K]]; [|congruence]. exfalso. apply (K1 e); [|exact L1]. rewrite L2. apply in_elt.
Qed.
Theorem section_unforced : forall fuel l g s, (exists p, process_rules None fuel false l g s = Ok p) <->
  Forall readable_elem l /\ each_valid (ru_classes g) (ru_rules g) l.
Proof.
  intros fuel l g s. rewrite section_checked. split; intros [F V]; (split; [exact F|]).
  - intros pre e post look rules El D1 D2.
    assert (Fp : Forall readable_elem pre) by (subst l; apply Forall_app in F; tauto).
    destruct (proj2 (section_forced fuel pre g s) Fp) as [[g1 s1] Hp]. destruct (V pre e post g1 s1 El Hp) as [V1 V2].
    destruct (section_read _ _ _ _ _ _ _ _ Hp) as [E1 [_ [E2 _]]]. split.
    + intros c Hc. eapply valid_class_more; [|exact (V1 c Hc)]. eapply defines_domain; eassumption.
    + intros r Hr. eapply valid_rule_more; [| |exact (V2 r Hr)]; eapply defines_domain; eassumption.
  - intros pre e post g1 s1 El Hp. destruct (section_read _ _ _ _ _ _ _ _ Hp) as [E1 [_ [E2 _]]]. exact (V pre e post _ _ El E1 E2).
Qed.
