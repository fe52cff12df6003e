(** Whole sections read with a database. *)
From Verif Require Import Base BaseFacts ClassModel ClassSpec ClassProofs ClassFinal RuleModel RuleSpec RuleProofs RuleCache RuleFinal RuleTable ActionModel
  Rfc7940Model SerialModel RulesXmlModel RulesXmlSpec RulesXmlClass RulesXmlRule RulesXmlFinal RulesXmlSection RulesXmlDoc RulesXmlTrip
  CharModel RepSpec LgrModel LabelModel LabelSpec EvalModel EvalSpec EvalFinal ReadySpec ReadyProofs.
Open Scope string_scope.
Open Scope list_scope.
Open Scope nat_scope.

Lemma names_steady : forall db fuel force pre post g s g1 s1 g' s', process_rules db fuel force pre g s = Ok (g1, s1) ->
  process_rules db fuel force post g1 s1 = Ok (g', s') -> new_names (ru_classes g) (pre ++ post) -> steady (ru_classes g1) (ru_classes g').
Proof.
  intros db fuel force pre post g s g1 s1 g' s' Hp H HN.
  destruct (section_read _ _ _ _ _ _ _ _ H) as [D _]. destruct (section_read _ _ _ _ _ _ _ _ Hp) as [D1 _]. split.
  - intros n c Hc. destruct (D n) as [[e [c' [[L1 [a [b [L2 _]]]] _]]]|[_ K]]; [|congruence]. exfalso.
    assert (El : class_elems (pre ++ post) = (class_elems pre ++ a) ++ e :: b) by (rewrite class_elems_app, L2, app_assoc; reflexivity).
    destruct (HN _ _ _ _ El L1) as [N1 [_ N3]]. destruct (D1 n) as [[e1 [c1 [[M1 [a1 [b1 [M2 _]]]] _]]]|[_ K]]; [|congruence].
    apply (N3 e1); [|exact M1]. apply in_or_app. left. rewrite M2. apply in_elt.
  - intro tg. destruct (D (tag_classname tg)) as [[e [c' [[L1 [a [b [L2 _]]]] _]]]|[_ K]]; [|congruence]. exfalso.
    assert (El : class_elems (pre ++ post) = (class_elems pre ++ a) ++ e :: b) by (rewrite class_elems_app, L2, app_assoc; reflexivity).
    destruct (HN _ _ _ _ El L1) as [_ [N2 _]]. apply N2. exists tg. reflexivity.
Qed.
Lemma names_rules : forall db fuel force pre post g s g1 s1 g' s', process_rules db fuel force pre g s = Ok (g1, s1) ->
  process_rules db fuel force post g1 s1 = Ok (g', s') -> new_rules (ru_rules g) (pre ++ post) -> more_rules (ru_rules g1) (ru_rules g').
Proof.
  intros db fuel force pre post g s g1 s1 g' s' Hp H HN.
  destruct (section_read _ _ _ _ _ _ _ _ H) as [_ [_ [D _]]]. destruct (section_read _ _ _ _ _ _ _ _ Hp) as [_ [_ [D1 _]]].
  intros n c Hc. destruct (D n) as [[e [c' [[L1 [a [b [L2 _]]]] _]]]|[_ K]]; [|congruence]. exfalso.
  assert (El : rule_elems (pre ++ post) = (rule_elems pre ++ a) ++ e :: b) by (unfold rule_elems in *; rewrite filter_app, L2, app_assoc; reflexivity).
  destruct (HN _ _ _ _ El L1) as [N1 N3]. destruct (D1 n) as [[e1 [c1 [[M1 [a1 [b1 [M2 _]]]] _]]]|[_ K]]; [|congruence].
  apply (N3 e1); [|exact M1]. apply in_or_app. left. rewrite M2. apply in_elt.
Qed.
Section Numbering.
  Variable u : ClassModel.unidb.
  Variable Look : table.
  Variable Rules : rtable.
  Variable fuel : nat.
  Variable force : bool.
  Notation process_rules := (process_rules (Some u) fuel force).
  Lemma section_number : forall l g s g' s' obj, process_rules l g s = Ok (g', s') ->
    (forall pre post g1 s1, l = pre ++ post -> process_rules pre g s = Ok (g1, s1) -> steady (ru_classes g1) Look /\ more_rules (ru_rules g1) Rules) ->
    fits u Look Rules obj s -> (forall n r, dget String.eqb n (ru_rules g) = Some r -> owned obj r /\ patterned u Look Rules obj r) ->
    exists obj', beyond u Look Rules obj obj' s s' /\ forall n r, dget String.eqb n (ru_rules g') = Some r -> owned obj' r /\ patterned u Look Rules obj' r.
  Proof.
    induction l as [|e l IH]; intros g s g' s' obj H HK F O.
    - injection H as <- <-. exists obj. split; [apply beyond_refl; exact F|exact O].
    - apply process_cons in H. destruct H as [g1 [s1 [E H]]].
      assert (HK1 : forall pre post g2 s2, l = pre ++ post -> process_rules pre g1 s1 = Ok (g2, s2) -> steady (ru_classes g2) Look /\ more_rules (ru_rules g2) Rules).
      { intros pre post g2 s2 El K. apply (HK (e :: pre) post g2 s2); [rewrite El; reflexivity|]. apply process_cons. exists g1, s1. split; assumption. }
      assert (Step : exists o1, beyond u Look Rules obj o1 s s1 /\ forall n r, dget String.eqb n (ru_rules g1) = Some r -> owned o1 r /\ patterned u Look Rules o1 r).
      { destruct (HK [] (e :: l) g s eq_refl eq_refl) as [HL HR].
        destruct E as [c T E V|r s1 T E V|a T E|U]; cbn [ru_rules] in *.
        - exists obj. split; [apply beyond_refl; exact F|exact O].
        - apply has_tag_iff in T. destruct (rule_number u Look Rules _ _ fuel HL HR e _ _ _ obj T E F) as [o1 [B1 [O1 P1]]]. exists o1. split; [exact B1|].
          pose proof (beyond_larger _ _ _ _ _ _ _ F B1) as L.
          assert (Old : forall n r', dget String.eqb n (ru_rules g) = Some r' -> owned o1 r' /\ patterned u Look Rules o1 r').
          { intros n r' Hn. destruct (O _ _ Hn) as [Q1 Q2]. split; [exact (proj2 (owned_larger _ _ L) _ Q1)|exact (patterned_larger _ _ _ _ _ L _ Q2)]. }
          destruct (x_get e "name") as [n0|]; [|exact Old]. intros n r' Hn. rewrite (dget_dset _ string_eqb_iff) in Hn. destruct (String.eqb n n0); [injection Hn as <-; auto|exact (Old _ _ Hn)].
        - exists obj. split; [apply beyond_refl; exact F|exact O].
        - exists obj. split; [|exact O]. split; [reflexivity|]. split; [cbn; lia|exact F]. }
      destruct Step as [o1 [B1 O1]]. destruct (IH _ _ _ _ o1 H HK1 (proj2 (proj2 B1)) O1) as [o2 [B2 O2]]. exists o2. split; [exact (beyond_trans _ _ _ _ _ _ _ _ _ B1 B2)|exact O2].
  Qed.
End Numbering.

Lemma tags_shaped : forall tags, shaped_table (ru_classes (before_rules tags)).
Proof.
  intro tags. unfold before_rules. cbn [ru_classes]. assert (G : forall t, shaped_table t -> shaped_table (fold_left (fun t p => set_tag_class t (fst p) (snd p)) tags t)).
  { induction tags as [|p l IH]; intros t Ht; [exact Ht|]. cbn [fold_left]. apply IH. intros n c Hc. unfold set_tag_class in Hc. rewrite (dget_dset _ string_eqb_iff) in Hc.
    destruct (String.eqb n _); [injection Hc as <-; exact I|exact (Ht _ _ Hc)]. }
  apply G. intros n c H. discriminate.
Qed.
Lemma shaped_read : forall db fuel force l g s g' s', process_rules db fuel force l g s = Ok (g', s') -> shaped_table (ru_classes g) -> shaped_table (ru_classes g').
Proof.
  intros db fuel force l g s g' s' H HS n c Hc. destruct (section_read _ _ _ _ _ _ _ _ H) as [D _]. destruct (D n) as [[e [c' [_ [H1 H2]]]]|[_ K]].
  - rewrite H2 in Hc. injection Hc as <-. exact (class_of_shaped _ _ H1).
  - rewrite K in Hc. exact (HS _ _ Hc).
Qed.
Theorem read_ready : forall u fuel force tags rs l g s, process_rules (Some u) fuel force l (before_rules tags) (fresh_read rs) = Ok (g, s) ->
  new_names (ru_classes (before_rules tags)) l -> new_rules [] l ->
  shaped_table (ru_classes g) /\ all_resolve u (ru_classes g) (ru_rules g) /\
  exists obj, owned_rules obj (ru_rules g) /\ used u (ru_classes g) (ru_rules g) obj (rd_cache s).
Proof.
  intros u fuel force tags rs l g s H HN HR. pose proof (shaped_read _ _ _ _ _ _ _ _ H (tags_shaped tags)) as HT. split; [exact HT|].
  assert (HS : forall n r, dget String.eqb n (ru_rules g) = Some r -> forall c, In c (classes_of_rule r) -> shaped c).
  { intros n r Hr. destruct (section_read _ _ _ _ _ _ _ _ H) as [_ [_ [D _]]]. destruct (D n) as [[e [r' [_ [H1 H2]]]]|[_ K]]; [|rewrite K in Hr; discriminate].
    rewrite H2 in Hr. injection Hr as <-. exact (rule_of_shaped _ _ H1). }
  destruct (section_number u (ru_classes g) (ru_rules g) fuel force l (before_rules tags) (fresh_read rs) g s (fun _ => None) H) as [obj [B O]].
  - intros pre post g1 s1 El Hp. subst l. rewrite process_app, Hp in H. cbn [bind fst snd] in H. split; [exact (names_steady _ _ _ _ _ _ _ _ _ _ _ Hp H HN)|exact (names_rules _ _ _ _ _ _ _ _ _ _ _ Hp H HR)].
  - split; [discriminate|apply used_none].
  - discriminate.
  - assert (Ow : owned_rules obj (ru_rules g)) by (intros n r Hr; apply (O n r Hr)). split.
    + intros n r Hr. destruct (O n r Hr) as [O1 [f [k [k' [p [U P]]]]]].
      pose proof (used_fresh u _ _ obj Ow k U) as Fr. destruct (proj2 (proj2 (cached u _ _ obj Ow f)) false r k k' (Ok p) P O1 Fr) as [_ [Q _]].
      destruct Q as [f' Q]; [discriminate|]. exact (proj2 (proj2 (pattern_resolves u _ _ HT HS f')) _ _ _ Q (HS _ _ Hr)).
    + exists obj. split; [exact Ow|exact (proj2 (proj2 (proj2 B)))].
Qed.
