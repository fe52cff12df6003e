(** The verdict of the RFC 7940 tool. *)
From Verif Require Import Base BaseFacts UtilsModel CharModel RepSpec RepProofs VariantProofs RangeProofs RefModel LgrModel LgrSpec LgrProofs LgrReach LgrRange LgrInv LgrTags LgrFinal.
From Verif Require Import Rfc7940Model Rfc7940Spec Rfc7940Proofs ValidateModel ValidateSpec ValidateProofs MetaModel MetaSpec MetaFinal SerialModel SerialSpec SerialProofs SerialTolerant SerialFinal ReportSpec ReportProofs.
From Verif Require Import ActionModel ClassModel RuleModel RulesXmlModel RulesXmlSpec RulesXmlDoc CompareModel ChecksModel ChecksSpec ChecksProofs RebuildModel DocModel DocFinal ReadySpec RfcToolModel RfcToolSpec RfcToolData RfcToolProofs.
Open Scope string_scope.
Open Scope list_scope.

Lemma gt_before : forall a b, text_gtb a b = true <-> before b a.
Proof. intros a b. unfold text_gtb. rewrite negb_true_iff. apply leb_before. Qed.
Lemma ok_eq : forall {A} (a b : A), Ok a = Ok b -> a = b.
Proof. intros A a b H. congruence. Qed.
Lemma ok_same : forall {A} (a b : A), bind (Ok tt) (fun _ => Ok a) = Ok b -> a = b.
Proof. intros A a b H. cbn [bind] in H. congruence. Qed.
Lemma nl_inj : forall a b : string, (a ++ nl)%string = (b ++ nl)%string <-> a = b.
Proof.
  intros a b. split; [|intros ->; reflexivity]. revert b. induction a as [|x a IH]; intros [|y b] H; cbn in H; [reflexivity| | |].
  - exfalso. injection H as _ H. destruct b; discriminate.
  - exfalso. injection H as _ H. destruct a; discriminate.
  - injection H as -> H. f_equal. exact (IH b H).
Qed.

Section Verdict.
  Variable lang_check : cps -> option bool.
  Variable dig : N -> bool.
  Variable mime : cps -> bool.
  Variable today : cps.
  Variable desc : string -> string.
  Variable u : ucd.
  Variable script : N -> string.
  Variable classes : ClassModel.unidb.
  Variable get_script : LgrModel.unidb -> N -> option string.
  Variable scripts : list string.
  Variable fuel : nat.
  Hypothesis no_lf : dig 10 = false.

  Notation reads d x := (read_document lang_check dig (Some (tool_db u script, classes)) fuel false true d = Ok (Some x)).
  Notation faulty := (faulty lang_check mime today u).
  Notation doubtful := (doubtful dig).
  Notation tool := (rfc7940_tool lang_check dig mime today desc u script classes get_script scripts fuel).
  Notation check := (tool_check dig mime today u script get_script scripts).

  (** ** What reading reports *)
  Lemma read_reports : forall d x, reads d x ->
    strictly u script (ld_lgr x) /\ tidy (ld_lgr x) /\
    exists cs L ml, dc_meta d = Some ml /\ chars_of (dc_data d) cs /\
      (forall t b, In (t, b) L -> b = false /\ (t = asc \/ t = strict \/ t = "parse_xml" \/ t = cv)) /\
      (In (asc, false) L <-> breaks (fun a b => ~ before a b /\ ~ begins b a) ([] :: cs)) /\
      (In ("parse_xml", false) L <-> In (cv, false) L) /\
      (In (cv, false) L <-> rejected u (dc_data d)) /\
      (exists fl, (fl = [] /\ ~ (exists e, In e (rules_part d) /\ noticed e) \/ fl = [("parse_xml", false)] /\ exists e, In e (rules_part d) /\ noticed e) /\
       md_checks (ld_meta x) = apply_reports [] (flat_map (meta_reports lang_check dig) ml ++ [("explicit_unicode_version", existsb is_unicode_elem ml)] ++
         L ++ [(asc, true); (strict, true)] ++ fl ++ [("parse_xml", true)])).
  Proof.
    intros d x H. destruct (document_inv _ _ _ _ _ _ _ _ H) as [ml [m [rm [r [s [H1 [H2 [H3 [H4 [_ H6]]]]]]]]]]. cbn [option_map fst snd] in *.
    unfold process_meta in H2. destruct (process_meta_loop lang_check dig true new_metadata empty_refman ml) as [[m1 rm1] [[]|e]] eqn:E; [|discriminate]. injection H2 as <- <-.
    pose proof (meta_started _ _ _ (Some (tool_db u script)) false _ _ _ _ _ _ E (started_new _ _)) as R.
    apply meta_loop_reports in E. cbn [new_metadata md_checks] in E. cbn [set_md_checks md_checks] in H3. unfold process_data in H3.
    destruct (process_data_loop true _ _ [] (dc_data d)) as [[g2 r2] [[]|e]] eqn:E2; [|discriminate]. injection H3 as Hg Hr.
    assert (S0 : strictly u script (set_refs (new_lgr (Some (tool_db u script)) false) rm1)) by (split; [exact (proj1 R)|split; reflexivity]).
    assert (T0 : tidy (set_refs (new_lgr (Some (tool_db u script)) false) rm1)).
    { apply proper_tidy. exact (proj1 (proj2 R)). }
    destruct (data_tidy u script _ _ _ _ _ _ E2 S0 T0) as [S1 T1]. subst g2.
    split; [exact S1|]. split; [exact T1|].
    pose proof E2 as E3. apply data_reports in E3. destruct E3 as [cs [L [D1 [D2 [D3 [D4 [_ [D6 _]]]]]]]].
    exists cs, L, ml. split; [exact H1|]. split; [exact D1|].
    assert (D3' : forall t b, In (t, b) L -> b = false /\ (t = asc \/ t = strict \/ t = "parse_xml" \/ t = cv)).
    { intros t b K. destruct (D3 t b K) as [-> [->|[->|K2]]]; [auto|auto|]. cbn in K2. split; [reflexivity|]. destruct K2 as [K2|[K2|[]]]; injection K2 as <-; auto. }
    split; [exact D3'|]. split; [exact D4|]. split; [exact D6|].
    set (r0 := add_test_result (md_checks m1) "explicit_unicode_version" (existsb is_unicode_elem ml)) in *.
    assert (K0 : dget String.eqb cv r0 = None).
    { unfold r0. rewrite add_get. cbn [String.eqb]. replace (String.eqb cv "explicit_unicode_version") with false by reflexivity. rewrite E.
      apply (proj1 (apply_get_empty _ _)). intros [b K]. apply meta_labels in K. unfold cv, lang, uni in K. intuition discriminate. }
    split.
    - destruct (data_refusals u script _ _ _ _ _ _ S0 ltac:(intros c K; apply K; destruct c; reflexivity) E2 K0) as [[C1 C2]|[C1 C2]]; rewrite D2, apply_get, K0 in C1.
      + split; [|contradiction]. intro K. exfalso. assert (I : In (cv, false) (filter (fun p : report => String.eqb cv (fst p)) L)) by (apply filter_In; split; [exact K|reflexivity]).
        destruct (filter _ L); [contradiction|discriminate].
      + split; [auto|]. intros _. destruct (filter (fun p : report => String.eqb cv (fst p)) L) as [|[t b] ps] eqn:Ef; [discriminate|].
        assert (I : In (t, b) (filter (fun p : report => String.eqb cv (fst p)) L)) by (rewrite Ef; left; reflexivity). apply filter_In in I. destruct I as [I1 I2].
        cbn [fst] in I2. apply String.eqb_eq in I2. subst t. rewrite (proj1 (D3 _ _ I1)) in I1. exact I1.
    - apply section_report in H4. cbn [fresh_read rd_results] in H4. destruct H4 as [[N Q]|[N Q]].
      + exists [("parse_xml", false)]. split; [right; auto|]. rewrite H6. cbn [set_md_checks md_checks]. rewrite Q, <- Hr, D2. unfold r0. rewrite E, !apply_app. reflexivity.
      + exists []. split; [left; auto|]. rewrite H6. cbn [set_md_checks md_checks]. rewrite Q, <- Hr, D2. unfold r0. rewrite E, !apply_app. reflexivity.
  Qed.

  (** ** The checks *)
  Definition checks_reports (x : loaded) : list report :=
    fst (check_symmetry (ld_lgr x) false) ++ fst (check_transitivity (ld_lgr x)) ++ metadata_reports today mime dig (ld_meta x) ++ fst (check_miscellaneous (Some u) (as_doc x)).
  Lemma checks_run : forall d x r, reads d x -> untexted d = false ->
    run_checks (check d x) (initial_checks ++ rfc7940_checks) r = (apply_reports r (checks_reports x), Ok tt).
  Proof.
    intros d x r H U. destruct (read_reports d x H) as [S [T _]]. pose proof S as [R [D F]].
    destruct (check_symmetry_issues (ld_lgr x) R false) as [rs1 [ok1 [is1 [E1 _]]]].
    destruct (check_transitivity_spec (ld_lgr x) R) as [rs2 [ok2 [is2 [E2 _]]]].
    destruct (misc_verdict u (as_doc x) T) as [b [E3 _]].
    pose proof (rebuild_tame get_script scripts _ (ld_lgr x) (Some (tool_db u script)) R D) as Rb.
    assert (C1 : forall r, check d x "check_xml_validity" r = (r, Ok tt)) by reflexivity.
    assert (C2 : forall r, check d x "check_symmetry" r = (apply_reports r rs1, Ok tt)) by (intro r0; unfold tool_check; rewrite E1; reflexivity).
    assert (C3 : forall r, check d x "check_transitivity" r = (apply_reports r rs2, Ok tt)) by (intro r0; unfold tool_check; rewrite E2; reflexivity).
    assert (C4 : forall r, check d x "check_conditional_variants" r = (r, Ok tt)) by reflexivity.
    assert (C5 : forall r, check d x "rebuild_lgr" r = (r, bind (rebuild_lgr get_script scripts (ld_lgr x) (Some (tool_db u script)) None) (fun _ => Ok tt))) by reflexivity.
    assert (C6 : forall r, check d x "compute_stats" r = (r, Ok tt)) by reflexivity.
    assert (C7 : forall r, check d x "check_metadata" r = (apply_reports r (metadata_reports today mime dig (ld_meta x)), Ok tt)).
    { intro r0. rewrite <- metadata_told. unfold tool_check. rewrite U. reflexivity. }
    assert (C8 : forall r, check d x "check_miscellaneous" r = (apply_reports r (fst (check_miscellaneous (Some u) (as_doc x))), Ok tt)).
    { intro r0. unfold tool_check. cbn [String.eqb Ascii.eqb Bool.eqb]. rewrite E3. reflexivity. }
    unfold initial_checks, rfc7940_checks, checks_reports. rewrite E1, E2. cbn [app run_checks fst]. rewrite C1, C2, C3, C4, C5.
    destruct (rebuild_lgr get_script scripts (ld_lgr x) (Some (tool_db u script)) None) as [z|e]; cbn [bind]; [|rewrite (Rb e eq_refl)]; rewrite C6, C7, C8, !apply_app; reflexivity.
  Qed.
  (** The tool for a document that could be read. *)
  Lemma tool_reads : forall rng quiet test d x, reads d x -> rng <> Some false ->
    tool rng quiet test d =
    (let r1 := match rng with Some _ => report_tested (md_checks (ld_meta x)) "schema" | None => md_checks (ld_meta x) end in
     let '(r2, done) := if test then (r1, Ok tt) else run_checks (check d x) (initial_checks ++ rfc7940_checks) r1 in
     bind done (fun _ => Ok (get_final_result desc r2 (Some tool_policy) (negb quiet) ++ nl)%string)).
  Proof. intros rng quiet test d x H Hr. unfold rfc7940_tool. rewrite H. destruct rng as [[|]|]; [reflexivity|congruence|reflexivity]. Qed.
  Definition schema_reports (rng : option bool) : list report := match rng with Some _ => [("schema", true)] | None => [] end.
  Lemma checks_crash : forall d x r, reads d x -> untexted d = true -> snd (run_checks (check d x) (initial_checks ++ rfc7940_checks) r) = Raise TypeError.
  Proof.
    intros d x r0 H U. destruct (read_reports d x H) as [S [T _]]. pose proof S as [R [D F]].
    destruct (check_symmetry_issues (ld_lgr x) R false) as [rs1 [ok1 [is1 [F1 _]]]].
    destruct (check_transitivity_spec (ld_lgr x) R) as [rs2 [ok2 [is2 [F2 _]]]].
    pose proof (rebuild_tame get_script scripts _ (ld_lgr x) (Some (tool_db u script)) R D) as Rb.
    unfold initial_checks, rfc7940_checks. cbn [app run_checks].
    replace (check d x "check_xml_validity" r0) with (r0, Ok tt : res unit) by reflexivity.
    replace (check d x "check_symmetry" r0) with (apply_reports r0 rs1, Ok tt : res unit) by (unfold tool_check; rewrite F1; reflexivity).
    replace (check d x "check_transitivity" (apply_reports r0 rs1)) with (apply_reports (apply_reports r0 rs1) rs2, Ok tt : res unit) by (unfold tool_check; rewrite F2; reflexivity).
    set (r3 := apply_reports (apply_reports r0 rs1) rs2). replace (check d x "check_conditional_variants" r3) with (r3, Ok tt : res unit) by reflexivity.
    replace (check d x "rebuild_lgr" r3) with (r3, bind (rebuild_lgr get_script scripts (ld_lgr x) (Some (tool_db u script)) None) (fun _ => Ok tt)) by reflexivity.
    assert (Km : check d x "check_metadata" r3 = (r3, Raise TypeError)) by (unfold tool_check; rewrite U; reflexivity).
    destruct (rebuild_lgr get_script scripts (ld_lgr x) (Some (tool_db u script)) None) as [z|e]; cbn [bind]; [|rewrite (Rb e eq_refl)];
      replace (check d x "compute_stats" r3) with (r3, Ok tt : res unit) by reflexivity; rewrite Km; reflexivity.
  Qed.
  Lemma tool_value : forall rng quiet test d x, reads d x -> rng <> Some false ->
    tool rng quiet test d =
    if (negb test && untexted d)%bool then Raise TypeError
    else Ok (get_final_result desc (apply_reports (md_checks (ld_meta x)) ((schema_reports rng) ++ (if test then [] else checks_reports x)))
             (Some tool_policy) (negb quiet) ++ nl)%string.
  Proof.
    intros rng quiet test d x H Hr. rewrite (tool_reads _ _ _ _ _ H Hr). cbv zeta.
    assert (E1 : match rng with Some _ => report_tested (md_checks (ld_meta x)) "schema" | None => md_checks (ld_meta x) end =
                 apply_reports (md_checks (ld_meta x)) (schema_reports rng)) by (destruct rng; reflexivity).
    rewrite E1, apply_app. clear E1. generalize (apply_reports (md_checks (ld_meta x)) (schema_reports rng)). intro r0. destruct test; [reflexivity|].
    cbn [negb andb]. destruct (untexted d) eqn:U.
    - pose proof (checks_crash d x r0 H U) as K. destruct (run_checks _ _ r0) as [r2 o]. cbn [snd] in K. rewrite K. reflexivity.
    - rewrite (checks_run _ _ _ H U). reflexivity.
  Qed.

  (** ** The verdict *)
  Lemma off : forall (labs : list string) (P : list report), (forall t b, In (t, b) P -> In t labs) ->
    forall t b, existsb (String.eqb t) labs = false -> ~ In (t, b) P.
  Proof.
    intros labs P H t b K I. apply H in I. assert (X : existsb (String.eqb t) labs = true) by (apply existsb_exists; exists t; split; [exact I|apply String.eqb_refl]).
    congruence.
  Qed.
  Lemma chars_same : forall l cs, chars_of l cs -> forall cs', chars_of l cs' -> cs = cs'.
  Proof.
    induction 1 as [|s a vs c l cs E H IH|f la a vs l cs H IH|l cs H IH]; intros cs' K; inversion K; subst; auto.
    f_equal; [congruence|auto].
  Qed.
  Lemma order_breaks : forall cs, breaks (fun a b => ~ before a b /\ ~ begins b a) ([] :: cs) <-> exists a b, follows a b cs /\ ~ before a b /\ ~ begins b a.
  Proof.
    intros [|c cs].
    - split; [intro K; exfalso; exact (breaks_one _ _ K)|]. intros [a [b [[l1 [l2 E]] _]]]. destruct l1; discriminate.
    - rewrite breaks_cons. split; [|intro K; right; exact K]. intros [[K1 K2]|K]; [|exact K]. exfalso. destruct c; [apply K2; exists []; reflexivity|apply K1; constructor].
  Qed.
  Lemma report_dec : forall (p : report) l, {In p l} + {~ In p l}.
  Proof. intros p l. apply in_dec. intros [a b] [c d]. decide equality; [apply bool_dec|apply string_dec]. Qed.
  Lemma executed_dec : forall l t, executed l t \/ ~ executed l t.
  Proof.
    intros l t. destruct (report_dec (t, true) l) as [H|H]; [left; exists true; exact H|]. destruct (report_dec (t, false) l) as [K|K]; [left; exists false; exact K|].
    right. intros [[|] I]; contradiction.
  Qed.
  Lemma metadata_failed : forall m,
    (bad_end today m = true <-> exists e, md_end m = Some e /\ before e today) /\
    (bad_interval m = true <-> exists s e, md_start m = Some s /\ md_end m = Some e /\ before e s) /\
    (bad_start today m = true <-> exists s, md_start m = Some s /\ before today s) /\
    (bad_description mime m = true <-> exists t c, md_description m = Some t /\ desc_type t = Some c /\ mime c = false) /\
    (existsb bad_scope (md_scopes m) = true <-> exists s t, In s (md_scopes m) /\ sc_type s = Some t /\ t <> txt "domain") /\
    (bad_version dig m = true <-> exists v, md_version m = Some v /\ ~ positive_integer dig (ver_value v)).
  Proof.
    intro m. split; [|split; [|split; [|split; [|split]]]].
    - unfold bad_end. destruct (md_end m) as [e|]; [rewrite gt_before|]; split; [intro K; eauto|intros [e' [[= ->] K]]; exact K|discriminate|intros [e' [K _]]; discriminate].
    - unfold bad_interval. destruct (md_start m) as [s|], (md_end m) as [e|]; [rewrite gt_before| | |]; split; try discriminate; [intro K; eauto|intros [s' [e' [[= ->] [[= ->] K]]]]; exact K| | |];
        intros [s' [e' [K1 [K2 _]]]]; discriminate.
    - unfold bad_start. destruct (md_start m) as [e|]; [rewrite gt_before|]; split; [intro K; eauto|intros [e' [[= ->] K]]; exact K|discriminate|intros [e' [K _]]; discriminate].
    - unfold bad_description. destruct (md_description m) as [t|]; [|split; [discriminate|intros [t [c [K _]]]; discriminate]].
      destruct (desc_type t) as [c|] eqn:E; [|split; [discriminate|intros [t' [c [[= <-] [K _]]]]; congruence]]. rewrite negb_true_iff. split; [intro K; eauto|].
      intros [t' [c' [[= <-] [K1 K2]]]]. congruence.
    - rewrite existsb_exists. unfold bad_scope. split.
      + intros [s [H1 H2]]. destruct (sc_type s) as [t|] eqn:E; [|discriminate]. exists s, t. split; [exact H1|]. split; [exact E|]. intros ->. rewrite cps_eqb_refl in H2. discriminate.
      + intros [s [t [H1 [H2 H3]]]]. exists s. split; [exact H1|]. rewrite H2. apply negb_true_iff. apply cps_eqb_neq. exact H3.
    - unfold bad_version. destruct (md_version m) as [v|]; [|split; [discriminate|intros [v [K _]]; discriminate]].
      rewrite negb_true_iff. pose proof (version_ok_iff dig no_lf (ver_value v)) as V. split.
      + intro K. exists v. split; [reflexivity|]. intro P. apply V in P. congruence.
      + intros [v' [[= <-] K]]. destruct (version_ok dig (ver_value v)); [|reflexivity]. exfalso. apply K. apply V. reflexivity.
  Qed.

  Lemma md_labels : forall m t b, In (t, b) (metadata_reports today mime dig m) -> In t ["validity_end_expiry"; "validity_start_end"; "validity_started"; "metadata_description_type"; "metadata_scope_type"; "metadata_version_integer"].
  Proof. intros m t b K. unfold metadata_reports in K. rewrite !in_app_iff, !told_in in K. cbn [In]. decompose [or and] K; auto 10. Qed.
  Lemma md_executed : forall m t, existsb (String.eqb t) ["validity_end_expiry"; "validity_start_end"; "validity_started"; "metadata_description_type"; "metadata_scope_type"; "metadata_version_integer"] = true -> In (t, true) (metadata_reports today mime dig m).
  Proof. intros m t K. unfold metadata_reports. rewrite !in_app_iff, !told_in. cbn [existsb] in K. rewrite !orb_true_iff, !String.eqb_eq in K. decompose [or] K; subst; try discriminate; tauto. Qed.
  Lemma md_failed : forall m t, In (t, false) (metadata_reports today mime dig m) <-> t = "validity_end_expiry" /\ bad_end today m = true \/ t = "validity_start_end" /\ bad_interval m = true \/
          t = "validity_started" /\ bad_start today m = true \/ t = "metadata_description_type" /\ bad_description mime m = true \/
          t = "metadata_scope_type" /\ existsb bad_scope (md_scopes m) = true \/ t = "metadata_version_integer" /\ bad_version dig m = true.
  Proof.
    intros m t. unfold metadata_reports. rewrite !in_app_iff, !told_in.
    assert (E : forall (a : string) c, t = a /\ (false = true \/ c = true /\ false = false) <-> t = a /\ c = true) by (intros a c; split; [intros [P [Q|[Q _]]]; [discriminate|auto]|intros [P Q]; auto]).
    rewrite !E. reflexivity.
  Qed.
  Ltac pick K := decompose [or and] K; first [assumption|discriminate].
  Ltac none K := exfalso; revert K; eapply off; [eassumption|reflexivity].
  (** Without all the tests the tool cannot pass a document. *)
  Lemma verdict_fails : forall d x rng test, reads d x -> rng = None \/ test = true ->
    get_final_result desc (apply_reports (md_checks (ld_meta x)) ((schema_reports rng) ++ (if test then [] else checks_reports x))) (Some tool_policy) false = "FAIL".
  Proof.
    intros d x rng test H Hrt. destruct (read_reports d x H) as [S [T [cs [L [ml [_ [_ [HL [_ [_ [_ [fl [Hfl Hmd]]]]]]]]]]]]].
    rewrite Hmd, <- apply_app. apply (proj1 (verdict_spec desc _ tool_policy)).
    set (M := flat_map (meta_reports lang_check dig) ml). set (euv := ("explicit_unicode_version", existsb is_unicode_elem ml)).
    pose proof (meta_labels lang_check dig ml) as Mlab. fold M in Mlab.
    pose proof (symmetry_labels (ld_lgr x) false) as Ls. pose proof (transitivity_labels (ld_lgr x)) as Lt.
    pose proof (misc_recorded u (as_doc x) T) as Hm. cbv zeta in Hm. destruct Hm as [_ [_ [_ [_ [_ [_ [_ [_ [_ [_ Hm]]]]]]]]]].
    assert (Rd : forall t b, In (t, b) (M ++ [euv] ++ L ++ [(asc, true); (strict, true)] ++ fl ++ [("parse_xml", true)]) ->
      In t [lang; uni; "parse_xml"; "explicit_unicode_version"; asc; strict; cv]).
    { intros t b K. rewrite !in_app_iff in K. destruct K as [K|[K|[K|[K|[K|K]]]]].
      - destruct (Mlab _ _ K) as [->|[[-> _]|[-> _]]]; cbn [In]; auto.
      - destruct K as [K|[]]. injection K as <- _. cbn [In]; auto.
      - destruct (HL _ _ K) as [_ [->|[->|[->| ->]]]]; cbn [In]; auto 10.
      - destruct K as [K|[K|[]]]; injection K as <- _; cbn [In]; auto 10.
      - destruct Hfl as [[-> _]|[-> _]]; [destruct K|]. destruct K as [K|[]]. injection K as <- _. cbn [In]; auto.
      - destruct K as [K|[]]. injection K as <- _. cbn [In]; auto. }
    set (B := M ++ _) in *. clearbody B.
    assert (Ck : forall t b, In (t, b) (checks_reports x) -> In t (["basic_symmetry"; "strict_symmetry"; "basic_transitivity"] ++
      ["validity_end_expiry"; "validity_start_end"; "validity_started"; "metadata_description_type"; "metadata_scope_type"; "metadata_version_integer"] ++
      ["standard_dispositions"; "data_variant_type"; "codepoint_valid"; "valid_unicode_version"; "ref_attribute_ascending"])).
    { intros t b K. unfold checks_reports in K. rewrite !in_app_iff in K. rewrite !in_app_iff. destruct K as [K|[K|[K|K]]].
      - left. destruct (Ls _ _ K) as [->| ->]; cbn [In]; auto.
      - left. rewrite (Lt _ _ K). cbn [In]; auto.
      - right. left. exact (md_labels _ _ _ K).
      - right. right. apply Hm. exists b. exact K. }
    destruct test.
    - exists "validity_end_expiry", "ERROR". split; [left; reflexivity|]. left. intros [b K]. rewrite !in_app_iff in K. destruct K as [K|[K|K]]; [none K| |destruct K].
      unfold schema_reports in K. destruct rng; [|destruct K]. destruct K as [K|[]]. discriminate.
    - destruct Hrt as [->|Q]; [|discriminate]. exists "schema", "ERROR". split; [unfold tool_policy; cbn [In]; clear; tauto|]. left. intros [b K]. rewrite !in_app_iff in K. destruct K as [K|[K|K]]; [none K|destruct K|none K].
  Qed.
  Section Full.
    Variables (d : document) (x : loaded).
    Hypothesis H : reads d x.
    Lemma full_verdict : exists A, (forall pl, get_final_result desc (apply_reports (md_checks (ld_meta x)) ([("schema", true)] ++ checks_reports x)) (Some pl) false =
        get_final_result desc (apply_reports [] A) (Some pl) false) /\
      (spec_error A tool_policy <-> faulty (Some true) false d x) /\
      (~ spec_error A tool_policy -> (spec_warn A tool_policy <-> doubtful d x)).
    Proof.
      destruct (read_reports d x H) as [S [T [cs [L [ml [Hml [Hcs [HL [Hasc [Hpx [Hcv [fl [Hfl Hmd]]]]]]]]]]]]]. pose proof S as [R [D F]].
      destruct (check_symmetry_issues (ld_lgr x) R false) as [rs1 [ok1 [is1 [E1 [_ [Hs1 [Hs2 [Hs3 Hs4]]]]]]]].
      destruct (check_transitivity_spec (ld_lgr x) R) as [rs2 [ok2 [is2 [E2 [_ [_ [Ht1 Ht2]]]]]]].
      pose proof (symmetry_labels (ld_lgr x) false) as Ls. rewrite E1 in Ls. cbn [fst] in Ls.
      pose proof (transitivity_labels (ld_lgr x)) as Lt. rewrite E2 in Lt. cbn [fst] in Lt.
      pose proof (misc_recorded u (as_doc x) T) as Hm. cbv zeta in Hm.
      destruct (metadata_failed (ld_meta x)) as [Mf1 [Mf2 [Mf3 [Mf4 [Mf5 Mf6]]]]].
      destruct (meta_language lang_check dig ml) as [Ml1 Ml2]. pose proof (meta_other lang_check dig ml) as Mo. pose proof (meta_labels lang_check dig ml) as Mlab.
      set (M := flat_map (meta_reports lang_check dig) ml) in *. set (euv := ("explicit_unicode_version", existsb is_unicode_elem ml)) in *.
      set (mi := fst (check_miscellaneous (Some u) (as_doc x))) in *. set (md := metadata_reports today mime dig (ld_meta x)).
      destruct Hm as [X1 [X2 [X3 [X4 [X5 [X6 [_ [_ [X9 [X10 X11]]]]]]]]]].
      change (doc_lgr (as_doc x)) with (ld_lgr x) in *.
      exists (M ++ [euv] ++ L ++ [(asc, true); (strict, true)] ++ fl ++ [("parse_xml", true)] ++ [("schema", true)] ++ rs1 ++ rs2 ++ md ++ mi). split.
      { intro pl. f_equal. unfold checks_reports. rewrite E1, E2. cbn [fst]. rewrite Hmd, <- !apply_app. fold mi md. f_equal. repeat first [rewrite <- app_assoc | progress cbn [app]]. reflexivity. }
      set (A := M ++ _).
      assert (HM : forall t b, In (t, b) M -> In t [lang; uni; "parse_xml"]) by (intros t b K; destruct (Mlab _ _ K) as [->|[[-> _]|[-> _]]]; cbn [In]; auto).
      assert (He : forall t b, In (t, b) [euv] -> In t ["explicit_unicode_version"]) by (intros t b [K|[]]; injection K as <- _; left; reflexivity).
      assert (HL' : forall t b, In (t, b) L -> In t [asc; strict; "parse_xml"; cv]) by (intros t b K; destruct (HL _ _ K) as [_ [->|[->|[->| ->]]]]; cbn [In]; auto).
      assert (Ho : forall t b, In (t, b) [(asc, true); (strict, true)] -> In t [asc; strict]) by (intros t b [K|[K|[]]]; injection K as <- _; cbn; auto).
      assert (Hf : forall t b, In (t, b) fl -> In t ["parse_xml"]) by (intros t b K; destruct Hfl as [[-> _]|[-> _]]; cbn in K; [contradiction|destruct K as [K|[]]; injection K as <- _; left; reflexivity]).
      assert (Hp : forall t b, In (t, b) [("parse_xml", true)] -> In t ["parse_xml"]) by (intros t b [K|[]]; injection K as <- _; left; reflexivity).
      assert (Hsc : forall t b, In (t, b) [("schema", true)] -> In t ["schema"]) by (intros t b [K|[]]; injection K as <- _; left; reflexivity).
      assert (Ls' : forall t b, In (t, b) rs1 -> In t ["basic_symmetry"; "strict_symmetry"]) by (intros t b K; destruct (Ls _ _ K) as [->| ->]; cbn [In]; auto).
      assert (Lt' : forall t b, In (t, b) rs2 -> In t ["basic_transitivity"]) by (intros t b K; rewrite (Lt _ _ K); cbn [In]; auto).
      assert (Hmt : forall t b, In (t, b) md -> In t ["validity_end_expiry"; "validity_start_end"; "validity_started"; "metadata_description_type"; "metadata_scope_type"; "metadata_version_integer"]).
      { intros t b K. exact (md_labels _ t b K). }
      assert (Hmi : forall t b, In (t, b) mi -> In t ["standard_dispositions"; "data_variant_type"; "codepoint_valid"; "valid_unicode_version"; "ref_attribute_ascending"]) by (intros t b K; apply X11; exists b; exact K).
      assert (HA : forall t b, In (t, b) A <-> In (t, b) M \/ In (t, b) [euv] \/ In (t, b) L \/ In (t, b) [(asc, true); (strict, true)] \/ In (t, b) fl \/ In (t, b) [("parse_xml", true)] \/
          In (t, b) [("schema", true)] \/ In (t, b) rs1 \/ In (t, b) rs2 \/ In (t, b) md \/ In (t, b) mi) by (intros t b; unfold A; rewrite !in_app_iff; reflexivity).
      clearbody A.
      (* Where each test is reported. *)
      assert (Ft : forall t b, existsb (String.eqb t) ["validity_end_expiry"; "validity_start_end"; "validity_started"; "metadata_description_type"; "metadata_scope_type"; "metadata_version_integer"] = true ->
        (In (t, b) A <-> In (t, b) md)).
      { intros t b K. rewrite HA. split; [|clear; tauto]. cbn [existsb] in K. rewrite !orb_true_iff, !String.eqb_eq in K.
        intros [I|[I|[I|[I|[I|[I|[I|[I|[I|[I|I]]]]]]]]]]; [| | | | | | | | |exact I|];
          (repeat (destruct K as [K|K]; [subst t; none I|])); discriminate. }
      assert (Fs : forall t b, existsb (String.eqb t) ["basic_symmetry"; "strict_symmetry"] = true -> (In (t, b) A <-> In (t, b) rs1)).
      { intros t b K. rewrite HA. split; [|clear; tauto]. cbn [existsb] in K. rewrite !orb_true_iff, !String.eqb_eq in K.
        intros [I|[I|[I|[I|[I|[I|[I|[I|[I|[I|I]]]]]]]]]]; [| | | | | | |exact I| | |];
          (repeat (destruct K as [K|K]; [subst t; none I|])); discriminate. }
      assert (Fm : forall t b, existsb (String.eqb t) ["standard_dispositions"; "data_variant_type"; "ref_attribute_ascending"] = true -> (In (t, b) A <-> In (t, b) mi)).
      { intros t b K. rewrite HA. split; [|clear; tauto]. cbn [existsb] in K. rewrite !orb_true_iff, !String.eqb_eq in K.
        intros [I|[I|[I|[I|[I|[I|[I|[I|[I|[I|I]]]]]]]]]]; [| | | | | | | | | |exact I];
          (repeat (destruct K as [K|K]; [subst t; none I|])); discriminate. }
      assert (Ftr : forall b, In ("basic_transitivity", b) A <-> In ("basic_transitivity", b) rs2).
      { intros b. rewrite HA. split; [|clear; tauto]. intros [I|[I|[I|[I|[I|[I|[I|[I|[I|[I|I]]]]]]]]]]; [| | | | | | | |exact I| |]; none I. }
      assert (Fl : forall b, In (lang, b) A <-> In (lang, b) M).
      { intros b. rewrite HA. split; [|clear; tauto]. intros [I|[I|[I|[I|[I|[I|[I|[I|[I|[I|I]]]]]]]]]]; [exact I| | | | | | | | | |]; none I. }
      assert (Fc : forall b, In (cv, b) A <-> In (cv, b) L \/ In (cv, b) mi).
      { intros b. rewrite HA. split; [|clear; tauto]. intros [I|[I|[I|[I|[I|[I|[I|[I|[I|[I|I]]]]]]]]]]; [| |left; exact I| | | | | | | |right; exact I]; none I. }
      assert (Fa : In (asc, false) A <-> In (asc, false) L).
      { rewrite HA. split; [|clear; tauto]. intros [I|[I|[I|[I|[I|[I|[I|[I|[I|[I|I]]]]]]]]]]; [| |exact I| | | | | | | |]; try none I. destruct I as [I|[I|[]]]; discriminate. }
      assert (Fp : In ("parse_xml", false) A <-> In MOtherE ml \/ rejected u (dc_data d) \/ exists e, In e (rules_part d) /\ noticed e).
      { rewrite HA, Mo, Hpx, Hcv. split.
        - intros [I|[I|[I|[I|[I|[I|[I|[I|[I|[I|I]]]]]]]]]]; [left; exact I| |right; left; exact I| | | | | | | |]; try none I.
          + destruct Hfl as [[-> _]|[_ K]]; [destruct I|]. right. right. exact K.
          + destruct I as [I|[]]. discriminate.
        - intros [K|[K|K]]; [clear - K; tauto|clear - K; tauto|]. destruct Hfl as [[_ K']|[-> _]]; [contradiction|]. right. right. right. right. left. left. reflexivity. }
      assert (Fx : forall t b, In (t, b) [(asc, true); (strict, true); ("parse_xml", true); ("schema", true)] -> executed A t).
      { intros t b K. exists true. rewrite HA. cbn [In] in K |- *. destruct K as [K|[K|[K|[K|[]]]]]; injection K as <- _; clear; tauto. }
      assert (Fsc : ~ In ("schema", false) A).
      { rewrite HA. intros [I|[I|[I|[I|[I|[I|[I|[I|[I|[I|I]]]]]]]]]]; try none I. destruct I as [I|[]]. discriminate. }
      assert (Fmd : forall t, existsb (String.eqb t) ["validity_end_expiry"; "validity_start_end"; "validity_started"; "metadata_description_type"; "metadata_scope_type"; "metadata_version_integer"] = true -> executed A t).
      { intros t K. exists true. apply (Ft t true K). exact (md_executed _ t K). }
      assert (Fmf : forall t, In (t, false) md <-> t = "validity_end_expiry" /\ bad_end today (ld_meta x) = true \/ t = "validity_start_end" /\ bad_interval (ld_meta x) = true \/
          t = "validity_started" /\ bad_start today (ld_meta x) = true \/ t = "metadata_description_type" /\ bad_description mime (ld_meta x) = true \/
          t = "metadata_scope_type" /\ existsb bad_scope (md_scopes (ld_meta x)) = true \/ t = "metadata_version_integer" /\ bad_version dig (ld_meta x) = true).
      { intro t. exact (md_failed _ t). }
      assert (Rules : rules_ok (as_doc x) \/ ~ rules_ok (as_doc x)) by (rewrite <- X9; apply executed_dec).
      assert (Hmp : meta_part d = ml) by (unfold meta_part; rewrite Hml; reflexivity).
      split.
      - split.
        + intros [t [p [Hin Hor]]]. unfold tool_policy in Hin. cbn [In] in Hin.
          destruct Hin as [Q|[Q|[Q|[Q|[Q|[Q|[Q|[Q|[Q|[Q|[Q|[Q|[Q|[Q|[Q|[Q|[Q|[Q|[]]]]]]]]]]]]]]]]]]]; injection Q as <- <-;
            destruct Hor as [N|[Fa' [En1 En2]]]; unfold failed in *; try congruence; try (exfalso; apply N; apply Fmd; reflexivity);
            try (exfalso; apply N; eapply Fx; cbn [In]; eauto; fail).
          * apply Ft, Fmf in Fa'; [|reflexivity]. assert (K : bad_end today (ld_meta x) = true) by (pick Fa'). apply Mf1 in K. destruct K as [e [K1 K2]]. eapply fa_expired; eauto.
          * apply Ft, Fmf in Fa'; [|reflexivity]. assert (K : bad_interval (ld_meta x) = true) by (pick Fa'). apply Mf2 in K. destruct K as [s0 [e [K1 [K2 K3]]]]. eapply fa_interval; eauto.
          * apply Ft, Fmf in Fa'; [|reflexivity]. assert (K : bad_start today (ld_meta x) = true) by (pick Fa'). apply Mf3 in K. destruct K as [s0 [K1 K2]]. eapply fa_future; eauto.
          * apply Ft, Fmf in Fa'; [|reflexivity]. assert (K : bad_description mime (ld_meta x) = true) by (pick Fa'). apply Mf4 in K. destruct K as [s0 [e [K1 [K2 K3]]]]. eapply fa_description; eauto.
          * apply Ft, Fmf in Fa'; [|reflexivity]. assert (K : existsb bad_scope (md_scopes (ld_meta x)) = true) by (pick Fa'). apply Mf5 in K. destruct K as [s0 [e [K1 [K2 K3]]]]. eapply fa_scope; eauto.
          * apply fa_no_language. rewrite Hmp. intros t K. apply N. destruct (proj2 Ml2 (ex_intro _ t K)) as [b I]. exists b. apply Fl. exact I.
          * apply Fl, Ml1 in Fa'. destruct Fa' as [t [K1 K2]]. eapply fa_language; [rewrite Hmp; exact K1|exact K2].
          * destruct Rules as [Ru|Ru]; [|apply fa_disposition; exact Ru]. apply fa_only_ranges. intros c ch K. destruct (is_range ch) eqn:Q; [reflexivity|]. exfalso. apply N.
            destruct (proj2 X3 (conj Ru (ex_intro _ c (ex_intro _ ch (conj K Q))))) as [b I]. exists b. apply Fm; [reflexivity|exact I].
          * apply Fm, X4 in Fa'; [|reflexivity]. apply fa_type. exact (proj2 Fa').
          * destruct Rules as [Ru|Ru]; [|apply fa_disposition; exact Ru]. apply fa_unicode. intro V. apply N. destruct (proj2 X5 (conj Ru V)) as [b I]. exists b. apply (Fc b). right. exact I.
          * apply Fc in Fa'. destruct Fa' as [K|K]; [apply fa_data, Hcv, K|]. apply X6 in K. exfalso. apply (proj2 (proj2 K)). exact (strict_code_points u script _ S).
          * destruct Rules as [Ru|Ru]; [|apply fa_disposition; exact Ru]. exfalso. apply N. destruct (proj2 X9 Ru) as [b I]. exists b. apply Fm; [reflexivity|exact I].
          * exfalso. apply N. destruct X1 as [b I]. exists b. apply Fm; [reflexivity|exact I].
          * apply Fm, X2 in Fa'; [|reflexivity]. apply fa_disposition. exact Fa'.
          * exfalso. apply N. destruct Hs2 as [b I]. exists b. apply Fs; [reflexivity|exact I].
          * exfalso. apply N. destruct Hs3 as [b I]. exists b. apply Fs; [reflexivity|exact I].
          * exfalso. apply N. destruct Ht1 as [b I]. exists b. apply Ftr. exact I.
          * apply Fp in Fa'. destruct Fa' as [K|[K|[e [K1 K2]]]]; [apply fa_meta; rewrite Hmp; exact K|apply fa_data; exact K|eapply fa_rules; eauto].
        + assert (In_pol : forall t p, existsb (fun q => (String.eqb t (fst q) && String.eqb p (snd q))%bool) tool_policy = true -> In (t, p) tool_policy).
          { intros t p K. apply existsb_exists in K. destruct K as [[t' p'] [K1 K2]]. cbn [fst snd] in K2. apply andb_true_iff in K2. rewrite !String.eqb_eq in K2. destruct K2 as [-> ->]. exact K1. }
          assert (Fe : forall t, existsb (fun q => (String.eqb t (fst q) && String.eqb "ERROR" (snd q))%bool) tool_policy = true -> In (t, false) A -> spec_error A tool_policy).
          { intros t K I. exists t, "ERROR". split; [apply In_pol; exact K|]. right. split; [exact I|split; discriminate]. }
          assert (Fn : forall t p, existsb (fun q => (String.eqb t (fst q) && String.eqb p (snd q))%bool) tool_policy = true -> ~ executed A t -> spec_error A tool_policy).
          { intros t p K I. exists t, p. split; [apply In_pol; exact K|]. left. exact I. }
          intro Fau. destruct Fau as [K|K|K|t K1 K2|K|e K1 K2|K|e K1 K2|s0 e K1 K2 K3|s0 K1 K2|t c K1 K2 K3|s0 t K1 K2 K3|K|K|K|K]; try discriminate.
          * apply (Fn lang "ERROR" eq_refl). intros [b I]. apply Fl in I. destruct (proj1 Ml2 (ex_intro _ b I)) as [t I']. apply (K t). rewrite Hmp. exact I'.
          * apply (Fe lang eq_refl). apply Fl, Ml1. exists t. rewrite Hmp in K1. auto.
          * apply (Fe "parse_xml" eq_refl), Fp. left. rewrite Hmp in K. exact K.
          * apply (Fe "parse_xml" eq_refl), Fp. right. right. eauto.
          * apply (Fe "parse_xml" eq_refl), Fp. right. left. exact K.
          * apply (Fe "validity_end_expiry" eq_refl). apply Ft; [reflexivity|]. apply Fmf. left. split; [reflexivity|]. apply Mf1. eauto.
          * apply (Fe "validity_start_end" eq_refl). apply Ft; [reflexivity|]. apply Fmf. right. left. split; [reflexivity|]. apply Mf2. eauto.
          * apply (Fe "validity_started" eq_refl). apply Ft; [reflexivity|]. apply Fmf. right. right. left. split; [reflexivity|]. apply Mf3. eauto.
          * apply (Fe "metadata_description_type" eq_refl). apply Ft; [reflexivity|]. apply Fmf. right. right. right. left. split; [reflexivity|]. apply Mf4. eauto.
          * apply (Fe "metadata_scope_type" eq_refl). apply Ft; [reflexivity|]. apply Fmf. right. right. right. right. left. split; [reflexivity|]. apply Mf5. eauto.
          * apply (Fe "standard_dispositions" eq_refl). apply Fm; [reflexivity|]. apply X2. exact K.
          * apply (Fn "data_variant_type" "ERROR" eq_refl). intros [b I]. apply Fm in I; [|reflexivity]. destruct (proj1 X3 (ex_intro _ b I)) as [_ [c [ch [I1 I2]]]]. rewrite (K c ch I1) in I2. discriminate.
          * destruct Rules as [Ru|Ru]; [|apply (Fe "standard_dispositions" eq_refl); apply Fm; [reflexivity|]; apply X2; exact Ru].
            apply (Fe "data_variant_type" eq_refl). apply Fm; [reflexivity|]. apply X4. split; [exact Ru|exact K].
          * destruct (report_dec (cv, false) L) as [I|I]; [apply (Fe "codepoint_valid" eq_refl); apply (Fc false); left; exact I|].
            apply (Fn "codepoint_valid" "ERROR" eq_refl). intros [b J]. apply (Fc b) in J. destruct J as [J|J]; [destruct (HL _ _ J) as [-> _]; contradiction|].
            destruct (proj1 X5 (ex_intro _ b J)) as [_ V]. exact (K V).
      - intro Good. assert (Ru : rules_ok (as_doc x)).
        { destruct Rules as [Ru|Ru]; [exact Ru|]. exfalso. apply Good. exists "standard_dispositions", "ERROR". split; [unfold tool_policy; cbn [In]; clear; tauto|]. right.
          split; [apply Fm; [reflexivity|]; apply X2; exact Ru|split; discriminate]. }
        split.
        + intros [t [Hin Hf']]. unfold failed in Hf'. unfold tool_policy in Hin. cbn [In] in Hin.
          destruct Hin as [Q|[Q|[Q|[Q|[Q|[Q|[Q|[Q|[Q|[Q|[Q|[Q|[Q|[Q|[Q|[Q|[Q|[Q|[]]]]]]]]]]]]]]]]]]]; try discriminate; injection Q as <-.
          * apply Ft, Fmf in Hf'; [|reflexivity]. assert (K : bad_version dig (ld_meta x) = true) by (pick Hf'). apply Mf6 in K. destruct K as [v [K1 K2]]. eapply do_version; eauto.
          * apply Fa, Hasc in Hf'. apply (proj1 (order_breaks cs)) in Hf'. destruct Hf' as [a [b [K1 [K2 K3]]]]. exact (do_order dig d x cs a b Hcs K1 K2 K3).
          * apply Fm, X10 in Hf'; [|reflexivity]. apply do_references. exact (proj2 Hf').
          * apply Fs, Hs4 in Hf'; [|reflexivity]. destruct Hf' as [ch [v [p [K1 _]]]]. apply Hs1 in K1. destruct K1 as [K1 [K2 K3]].
            apply (do_asymmetric dig d x (ch_cp ch) (v_cp v) v p); [exists ch; auto|exact K3].
          * apply Fs, Hs4 in Hf'; [|reflexivity]. destruct Hf' as [ch [v [p [K1 _]]]]. apply Hs1 in K1. destruct K1 as [K1 [K2 K3]].
            apply (do_asymmetric dig d x (ch_cp ch) (v_cp v) v p); [exists ch; auto|exact K3].
          * apply Ftr, Ht2 in Hf'. destruct Hf' as [a [c K]]. eapply do_gap; eauto.
        + assert (In_pol : forall t, existsb (fun q => (String.eqb t (fst q) && String.eqb "WARNING" (snd q))%bool) tool_policy = true -> In (t, false) A -> spec_warn A tool_policy).
          { intros t K I. exists t. split; [|exact I]. apply existsb_exists in K. destruct K as [[t' p'] [K1 K2]]. cbn [fst snd] in K2. apply andb_true_iff in K2. rewrite !String.eqb_eq in K2. destruct K2 as [-> ->]. exact K1. }
          intro Db. destruct Db as [v K1 K2|cs' a b K1 K2 K3 K4|K|a b v p K1 K2|a c K].
          * apply (In_pol "metadata_version_integer" eq_refl). apply Ft; [reflexivity|]. apply Fmf. right. right. right. right. right. split; [reflexivity|]. apply Mf6. eauto.
          * apply (In_pol asc eq_refl). apply Fa, Hasc. apply (proj2 (order_breaks cs)). rewrite (chars_same _ _ Hcs _ K1). eauto.
          * apply (In_pol "ref_attribute_ascending" eq_refl). apply Fm; [reflexivity|]. apply X10. split; [exact Ru|exact K].
          * destruct K1 as [ch [I1 [I2 I3]]]. pose proof (lk_cp (lg_rep (ld_lgr x)) a ch) as Hcp. rewrite <- lookup_lk in Hcp. specialize (Hcp I1).
            assert (Is : In (ch, v, p) is1) by (apply Hs1; rewrite Hcp; auto).
            destruct p; first [apply (In_pol "basic_symmetry" eq_refl); apply Fs; [reflexivity|]; apply Hs4; eexists _, _, _; split; [exact Is|reflexivity]
              |apply (In_pol "strict_symmetry" eq_refl); apply Fs; [reflexivity|]; apply Hs4; eexists _, _, _; split; [exact Is|reflexivity]].
          * apply (In_pol "basic_transitivity" eq_refl). apply Ftr, Ht2. eauto.
    Qed.
  End Full.

  (** The verdict of the tool, for a document that it could read. *)
  Theorem tool_verdict : forall rng test d x out, reads d x -> rng <> Some false -> tool rng true test d = Ok out ->
    (out = "FAIL" ++ nl <-> faulty rng test d x)%string /\
    (out = "WARN" ++ nl <-> ~ faulty rng test d x /\ doubtful d x)%string /\
    (out = "PASS" ++ nl <-> ~ faulty rng test d x /\ ~ doubtful d x)%string.
  Proof.
    intros rng test d x out H Hr E. rewrite (tool_value _ _ _ _ _ H Hr) in E. destruct (negb test && untexted d)%bool; [discriminate|].
    change (negb true) with false in E.
    assert (E' : out = (get_final_result desc (apply_reports (md_checks (ld_meta x)) ((schema_reports rng) ++ (if test then [] else checks_reports x))) (Some tool_policy) false ++ nl)%string) by congruence.
    clear E. subst out. rewrite !nl_inj.
    assert (Q : (rng = None \/ test = true) \/ rng = Some true /\ test = false) by (destruct rng as [[|]|], test; auto; congruence).
    destruct Q as [Q|[-> ->]].
    - rewrite (verdict_fails _ _ _ _ H Q). assert (F : faulty rng test d x) by (destruct Q as [->| ->]; [apply fa_schema|apply fa_test]; reflexivity).
      split; [split; [intros _; exact F|reflexivity]|]. split; (split; [discriminate|intros [K _]; contradiction]).
    - destruct (full_verdict d x H) as [A [E [P1 P2]]]. rewrite E. destruct (verdict_spec desc A tool_policy) as [V1 [V2 V3]]. rewrite V1, V2, V3, P1. split; [reflexivity|].
      split; (split; [intros [K1 K2]; split; [exact K1|]; rewrite <- P1 in K1; apply P2 in K1; tauto|intros [K1 K2]; split; [exact K1|]; rewrite <- P1 in K1; apply P2 in K1; tauto]).
  Qed.
  Lemma version_text_last : forall l last, 
    (version_text l last = last /\ (forall t c, ~ In (MVersion t c) l)) \/
    (exists pre t c post, l = pre ++ MVersion t c :: post /\ (forall t' c', ~ In (MVersion t' c') post) /\ version_text l last = Some t).
  Proof.
    induction l as [|e l IH]; intro last; [left; split; [reflexivity|intros t c []]|].
    assert (X : forall nw, (forall t c, e <> MVersion t c) -> version_text (e :: l) nw = version_text l nw).
    { intros nw N. destruct e; try reflexivity. exfalso. eapply N; reflexivity. }
    assert (D : (exists t c, e = MVersion t c) \/ (forall t c, e <> MVersion t c)) by (destruct e; [left; eauto|right; discriminate..]).
    destruct D as [(t & c & ->)|N].
    - cbn [version_text]. destruct (IH (Some t)) as [[K1 K2]|(pre & t2 & c2 & post & E & K & V)].
      + right. exists [], t, c, l. split; [reflexivity|]. split; [exact K2|exact K1].
      + right. exists (MVersion t c :: pre), t2, c2, post. split; [rewrite E; reflexivity|]. split; assumption.
    - rewrite (X last N). destruct (IH last) as [[K1 K2]|(pre & t2 & c2 & post & E & K & V)].
      + left. split; [exact K1|]. intros t c [Q|Q]; [exact (N t c Q)|exact (K2 t c Q)].
      + right. exists (e :: pre), t2, c2, post. split; [rewrite E; reflexivity|]. split; assumption.
  Qed.
  Lemma last_of : forall (A : Type) (P : A -> Prop) (p1 p2 : list A) a b q1 q2, p1 ++ a :: q1 = p2 ++ b :: q2 -> P a -> P b ->
    (forall x, In x q1 -> ~ P x) -> (forall x, In x q2 -> ~ P x) -> a = b.
  Proof.
    intros A P. induction p1 as [|x p1 IH]; intros [|y p2] a b q1 q2 E Pa Pb N1 N2; cbn [app] in E; injection E as E1 E2.
    - exact E1.
    - exfalso. apply (N1 b); [rewrite E2; apply in_or_app; right; left; reflexivity|exact Pb].
    - exfalso. apply (N2 a); [rewrite <- E2; apply in_or_app; right; left; reflexivity|exact Pa].
    - exact (IH p2 a b q1 q2 E2 Pa Pb N1 N2).
  Qed.
  Lemma untexted_iff : forall d, untexted d = true <-> empty_version d.
  Proof.
    intro d. unfold untexted, empty_version, meta_part. destruct (dc_meta d) as [ml|].
    - destruct (version_text_last ml None) as [[K1 K2]|(pre & t & c & post & E & K & V)].
      + rewrite K1. split; [discriminate|]. intros (pre & c & post & E & _). exfalso. apply (K2 None c). rewrite E. apply in_or_app. right. left. reflexivity.
      + rewrite V. split.
        * intro H. destruct t; [discriminate|]. eauto.
        * intros (pre2 & c2 & post2 & E2 & K3). rewrite E in E2.
          assert (Q : MVersion t c = MVersion None c2).
          { apply (last_of _ (fun e => exists t c, e = MVersion t c) _ _ _ _ _ _ E2); eauto.
            - intros x Hx (t' & c' & ->). exact (K _ _ Hx).
            - intros x Hx (t' & c' & ->). exact (K3 _ _ Hx). }
          injection Q as -> _. reflexivity.
    - split; [discriminate|]. intros ([|? ?] & c & post & E & _); discriminate.
  Qed.
  (** When it says anything. *)
  Theorem tool_says : forall rng quiet test d x, reads d x -> rng <> Some false ->
    (test = false /\ empty_version d /\ tool rng quiet test d = Raise TypeError) \/
    ((test = true \/ ~ empty_version d) /\ exists out, tool rng quiet test d = Ok out).
  Proof.
    intros rng quiet test d x H Hr. rewrite (tool_value _ _ _ _ _ H Hr). pose proof (untexted_iff d) as U.
    destruct test, (untexted d); cbn [negb andb];
      [right; split; [auto|]|right; split; [auto|]|left; split; [reflexivity|]; split; [apply U|]; reflexivity|right; split; [right; intro K; apply U in K; discriminate|]]; eexists; reflexivity.
  Qed.
  Theorem tool_verbose : forall rng test d x out, reads d x -> rng <> Some false -> tool rng true test d = Ok out ->
    exists before, tool rng false test d = Ok (before ++ out)%string.
  Proof.
    intros rng test d x out H Hr. rewrite !(tool_value _ _ _ _ _ H Hr). destruct (negb test && untexted d)%bool; [discriminate|]. change (negb true) with false. change (negb false) with true.
    generalize (apply_reports (md_checks (ld_meta x)) (schema_reports rng ++ (if test then [] else checks_reports x))). intros r0 E.
    destruct (verbose_suffix desc r0 tool_policy) as [info K]. exists info. rewrite K. revert E. generalize (get_final_result desc r0 (Some tool_policy) false). intros q E.
    f_equal. apply ok_eq in E. subst out. clear. induction info as [|c info IH]; [reflexivity|]. cbn [append]. rewrite IH. reflexivity.
  Qed.
  (** Documents that it could not read. *)
  Theorem tool_unread : forall rng quiet test d,
    (rng = Some false -> tool rng quiet test d = Ok ("FAIL" ++ nl)%string) /\
    (forall out, dc_meta d = None -> tool rng quiet test d = Ok out -> out = ("FAIL" ++ nl)%string) /\
    (forall e, rng <> Some false -> read_document lang_check dig (Some (tool_db u script, classes)) fuel false true d = Raise e -> tool rng quiet test d = Raise e).
  Proof.
    intros rng quiet test d. unfold rfc7940_tool. split; [intros ->; reflexivity|]. split.
    - intros out K. unfold read_document. rewrite K. destruct rng as [[|]|]; [|intro E; apply ok_eq in E; auto|];
        (destruct (headless_data _) as [[]|]; [|discriminate]; destruct (headless_rules _) as [[]|]; [|discriminate]; intro E; apply ok_eq in E; auto).
    - intros e Hr K. rewrite K. destruct rng as [[|]|]; [reflexivity|congruence|reflexivity].
  Qed.
End Verdict.

(** ** The options *)
Section Options.
  Variables (lang_check : cps -> option bool) (dig : N -> bool) (mime : cps -> bool) (today : cps) (desc : string -> string) (u : ucd) (script : N -> string)
    (classes : ClassModel.unidb) (get_script : LgrModel.unidb -> N -> option string) (scripts : list string) (fuel : nat).
  Hypothesis no_lf : dig 10 = false.
  Theorem tool_needs_all : forall rng test d out, rng = None \/ test = true ->
    rfc7940_tool lang_check dig mime today desc u script classes get_script scripts fuel rng true test d = Ok out -> out = ("FAIL" ++ nl)%string.
  Proof.
    intros rng test d out Hrt E. assert (Q : rng = Some false \/ rng <> Some false) by (destruct rng as [[|]|]; [right|left|right]; congruence).
    destruct (tool_unread lang_check dig mime today desc u script classes get_script scripts fuel rng true test d) as [U1 [U2 U3]].
    destruct Q as [Q|Q]; [rewrite (U1 Q) in E; apply ok_eq in E; auto|].
    destruct (read_document lang_check dig (Some (tool_db u script, classes)) fuel false true d) as [[x|]|e] eqn:R.
    - apply (proj1 (tool_verdict lang_check dig mime today desc u script classes get_script scripts fuel no_lf rng test d x out R Q E)).
      destruct Hrt as [->| ->]; [apply fa_schema|apply fa_test]; reflexivity.
    - unfold rfc7940_tool in E. rewrite R in E. destruct rng as [[|]|]; [|congruence|]; apply ok_eq in E; auto.
    - rewrite (U3 e Q eq_refl) in E. discriminate.
  Qed.
End Options.
