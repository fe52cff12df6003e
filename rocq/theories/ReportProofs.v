(** Proofs about the reports of the XML reader. *)
From Verif Require Import Base BaseFacts UtilsModel CharModel LgrModel Rfc7940Model Rfc7940Spec Rfc7940Proofs ValidateModel
  MetaModel MetaSpec MetaFinal SerialModel ReportSpec.
Open Scope string_scope.
Open Scope list_scope.

Lemma leb_before : forall c p, cps_leb c p = false <-> before p c.
Proof.
  induction c as [|x c IH]; intros p.
  - split; [discriminate|]. intro H. inversion H.
  - destruct p as [|y p]; cbn [cps_leb].
    + split; [intros _; constructor|reflexivity].
    + destruct (N.eqb_spec x y) as [->|Hn].
      * rewrite IH. split; [apply bf_same|]. intro H. inversion H; subst; [lia|assumption].
      * rewrite N.ltb_ge. split; [intro H; apply bf_less; lia|]. intro H. inversion H; subst; [lia|congruence].
Qed.
Lemma begins_firstn : forall c p, begins c p <-> firstn (length c) p = c.
Proof.
  intros c p. split.
  - intros [r ->]. rewrite firstn_app, Nat.sub_diag, firstn_all. apply app_nil_r.
  - intro H. exists (skipn (length c) p). rewrite <- H at 1. symmetry. apply firstn_skipn.
Qed.
Lemma begins_not_before : forall c p, begins c p -> ~ before p c.
Proof.
  induction c as [|x c IH]; intros p [r ->] H; [inversion H|]. cbn [app] in H. inversion H; subst; [lia|]. apply (IH (c ++ r)); [exists r; reflexivity|assumption].
Qed.
Lemma apply_app : forall l1 l2 r, apply_reports r (l1 ++ l2) = apply_reports (apply_reports r l1) l2.
Proof. intros. apply fold_left_app. Qed.

(** ** The data *)
Definition asc : string := "char_ascending_order".
Definition strict : string := "char_strict_ascending_order".
Definition order_reports (p c : cps) : list report :=
  if cps_leb c p then if cps_eqb (firstn (length c) p) c then [(strict, false)] else [(asc, false)] else [].
Lemma check_order_is : forall p c r, check_order p c r = apply_reports r (order_reports p c).
Proof. intros. unfold check_order, order_reports. destruct (cps_leb c p); [|reflexivity]. destruct (cps_eqb _ _); reflexivity. Qed.
Lemma order_asc : forall p c, In (asc, false) (order_reports p c) <-> ~ before p c /\ ~ begins c p.
Proof.
  intros. unfold order_reports. rewrite begins_firstn. destruct (cps_leb c p) eqn:E.
  - assert (~ before p c) by (intro K; apply leb_before in K; congruence). destruct (cps_eqb _ c) eqn:Ec.
    + apply cps_eqb_eq in Ec. split; [intros [K|[]]; discriminate|intros [_ K]; contradiction].
    + split; [|left; reflexivity]. intros _. split; [assumption|]. intro K. apply cps_eqb_eq in K. congruence.
  - apply leb_before in E. split; [intros []|tauto].
Qed.
Lemma order_strict : forall p c, In (strict, false) (order_reports p c) <-> begins c p.
Proof.
  intros. unfold order_reports. destruct (cps_leb c p) eqn:E.
  - destruct (cps_eqb _ c) eqn:Ec.
    + apply cps_eqb_eq in Ec. split; [intros _; apply begins_firstn; exact Ec|left; reflexivity].
    + split; [intros [K|[]]; discriminate|]. intro K. apply begins_firstn, cps_eqb_eq in K. congruence.
  - apply leb_before in E. split; [intros []|]. intro K. exfalso. exact (begins_not_before _ _ K E).
Qed.
Lemma order_labels : forall p c t b, In (t, b) (order_reports p c) -> b = false /\ (t = asc \/ t = strict).
Proof.
  intros p c t b. unfold order_reports. destruct (cps_leb c p); [|intros []]. destruct (cps_eqb _ c); intros [K|[]]; injection K as <- <-; auto.
Qed.

Definition refusal : list report := [("parse_xml", false); ("codepoint_valid", false)].
Lemma attempt_reports : forall force r p g' r' x, attempt force r p = (g', r', x) ->
  (r' = r \/ r' = apply_reports r refusal) /\ (force = false -> x = Ok tt -> r' = r).
Proof.
  intros force r [g [u|e]] g' r' x H; cbn [attempt] in H; [injection H as <- <- <-; auto|].
  destruct (is_lgr_exception e); [|injection H as <- <- <-; auto].
  destruct force; injection H as <- <- <-; split; auto; discriminate.
Qed.
(** Only refusals: *)
Definition refusals (force : bool) (L : list report) : Prop :=
  (forall p, In p L -> In p refusal) /\ (In ("parse_xml", false) L <-> In ("codepoint_valid", false) L) /\ (force = false -> L = []).
Lemma attempt_refusals : forall force r p g' r', attempt force r p = (g', r', Ok tt) ->
  exists L, r' = apply_reports r L /\ refusals force L.
Proof.
  intros force r p g' r' H. destruct (attempt_reports _ _ _ _ _ _ H) as [[-> | ->] K].
  - exists []. split; [reflexivity|]. split; [intros ? []|]. split; [cbn; tauto|reflexivity].
  - destruct force.
    + exists refusal. split; [reflexivity|]. split; [auto|]. split; [cbn; tauto|discriminate].
    + exists []. split; [exact (K eq_refl eq_refl)|]. split; [intros ? []|]. split; [cbn; tauto|reflexivity].
Qed.
Lemma refusals_app : forall force L1 L2, refusals force L1 -> refusals force L2 -> refusals force (L1 ++ L2).
Proof.
  intros force L1 L2 [A1 [A2 A3]] [B1 [B2 B3]]. split; [|split].
  - intros p H. apply in_app_or in H. destruct H; auto.
  - rewrite !in_app_iff. tauto.
  - intro H. rewrite A3, B3 by exact H. reflexivity.
Qed.
Lemma vars_refusals : forall force vs g r c g' r', process_vars force g r c vs = (g', r', Ok tt) ->
  exists L, r' = apply_reports r L /\ refusals force L.
Proof.
  intros force. induction vs as [|v vs IH]; intros g r c g' r' H; cbn [process_vars] in H.
  - injection H as <- <-. exists []. split; [reflexivity|]. split; [intros ? []|]. split; [cbn; tauto|reflexivity].
  - destruct (parse_cps (ve_cp v)) as [vc|e]; [|discriminate].
    destruct (attempt force r _) as [[g1 r1] [[]|e]] eqn:E; [|discriminate].
    apply attempt_refusals in E. destruct E as [L1 [-> R1]]. apply IH in H. destruct H as [L2 [-> R2]].
    exists (L1 ++ L2). split; [symmetry; apply apply_app|]. apply refusals_app; assumption.
Qed.
Lemma refusal_order : forall force L t, refusals force L -> t = asc \/ t = strict -> ~ In (t, false) L.
Proof. intros force L t [H _] Ht K. apply H in K. cbn in K. destruct K as [K|[K|[]]]; injection K as <-; destruct Ht; discriminate. Qed.

Definition breaks (P : cps -> cps -> Prop) (l : list cps) : Prop := exists a b, follows a b l /\ P a b.
Lemma breaks_cons : forall P p c l, breaks P (p :: c :: l) <-> P p c \/ breaks P (c :: l).
Proof.
  intros P p c l. split.
  - intros [a [b [[l1 [l2 E]] H]]]. destruct l1 as [|x l1]; cbn [app] in E.
    + left. assert (a = p /\ b = c) as [-> ->] by (split; congruence). exact H.
    + right. apply (f_equal (@tl cps)) in E. cbn [tl] in E. exists a, b. split; [exists l1, l2; exact E|exact H].
  - intros [H|[a [b [[l1 [l2 E]] H]]]].
    + exists p, c. split; [exists [], l; reflexivity|exact H].
    + exists a, b. split; [exists (p :: l1), l2; cbn; congruence|exact H].
Qed.
Lemma breaks_one : forall P p, ~ breaks P [p].
Proof. intros P p [a [b [[l1 [l2 E]] _]]]. destruct l1 as [|? [|]]; discriminate. Qed.

Lemma data_reports : forall force l g r prev g' r', process_data_loop force g r prev l = (g', r', Ok tt) ->
  exists cs L, chars_of l cs /\ r' = apply_reports r L /\
    (forall t b, In (t, b) L -> b = false /\ (t = asc \/ t = strict \/ In (t, b) refusal)) /\
    (In (asc, false) L <-> breaks (fun a b => ~ before a b /\ ~ begins b a) (prev :: cs)) /\
    (In (strict, false) L <-> breaks (fun a b => begins b a) (prev :: cs)) /\
    (In ("parse_xml", false) L <-> In ("codepoint_valid", false) L) /\
    (force = false -> ~ In ("parse_xml", false) L).
Proof.
  intros force. induction l as [|e l IH]; intros g r prev g' r' H; cbn [process_data_loop] in H.
  - injection H as <- <-. exists [], []. split; [constructor|]. split; [reflexivity|]. split; [intros ? ? []|].
    split; [split; [intros []|intro K; exact (breaks_one _ _ K)]|]. split; [split; [intros []|intro K; exact (breaks_one _ _ K)]|].
    cbn. tauto.
  - destruct e as [s a vs|f la a vs|].
    + destruct (parse_cps s) as [c|x] eqn:Ec; [|discriminate].
      destruct (attempt force (check_order prev c r) _) as [[g1 r1] [[]|x]] eqn:E1; [|discriminate].
      destruct (process_vars force g1 r1 c vs) as [[g2 r2] [[]|x]] eqn:E2; [|discriminate].
      apply attempt_refusals in E1. destruct E1 as [L1 [-> R1]]. apply vars_refusals in E2. destruct E2 as [L2 [-> R2]].
      apply IH in H. destruct H as [cs [L [H1 [-> [H3 [H4 [H5 [H6 H7]]]]]]]].
      pose proof (refusals_app _ _ _ R1 R2) as R. set (L12 := L1 ++ L2) in *.
      exists (c :: cs), (order_reports prev c ++ L12 ++ L). split; [constructor; assumption|].
      split; [unfold L12; rewrite check_order_is, !apply_app; reflexivity|].
      assert (Hx : forall t, t = "parse_xml" \/ t = "codepoint_valid" -> ~ In (t, false) (order_reports prev c)).
      { intros t Ht K. apply order_labels in K. destruct K as [_ [->| ->]]; destruct Ht; discriminate. }
      split; [|split; [|split; [|split]]].
      * intros t b K. apply in_app_or in K. destruct K as [K|K]; [apply order_labels in K; tauto|].
        apply in_app_or in K. destruct K as [K|K]; [|apply H3; exact K]. apply R in K.
        split; [cbn in K; destruct K as [K|[K|[]]]; injection K as _ <-; reflexivity|auto].
      * rewrite !in_app_iff, breaks_cons, order_asc, <- H4. pose proof (refusal_order force L12 asc R (or_introl eq_refl)). tauto.
      * rewrite !in_app_iff, breaks_cons, order_strict, <- H5. pose proof (refusal_order force L12 strict R (or_intror eq_refl)). tauto.
      * rewrite !in_app_iff. pose proof (Hx "parse_xml" (or_introl eq_refl)). pose proof (Hx "codepoint_valid" (or_intror eq_refl)).
        destruct R as [_ [R _]]. tauto.
      * intro Hf. rewrite !in_app_iff. specialize (H7 Hf). pose proof (Hx "parse_xml" (or_introl eq_refl)). destruct R as [_ [_ R]].
        rewrite (R Hf). cbn [In]. tauto.
    + destruct (parse_cp f) as [n|x]; [|discriminate]. destruct (parse_cp la) as [n'|x]; [|discriminate].
      destruct (attempt force r _) as [[g1 r1] [[]|x]] eqn:E1; [|discriminate].
      apply attempt_refusals in E1. destruct E1 as [L1 [-> R]].
      apply IH in H. destruct H as [cs [L [H1 [-> [H3 [H4 [H5 [H6 H7]]]]]]]].
      exists cs, (L1 ++ L). split; [constructor; assumption|]. split; [rewrite apply_app; reflexivity|].
      split; [|split; [|split; [|split]]].
      * intros t b K. apply in_app_or in K. destruct K as [K|K]; [|apply H3; exact K]. apply R in K.
        split; [cbn in K; destruct K as [K|[K|[]]]; injection K as _ <-; reflexivity|auto].
      * rewrite in_app_iff, <- H4. pose proof (refusal_order force L1 asc R (or_introl eq_refl)). tauto.
      * rewrite in_app_iff, <- H5. pose proof (refusal_order force L1 strict R (or_intror eq_refl)). tauto.
      * rewrite !in_app_iff. destruct R as [_ [R _]]. tauto.
      * intro Hf. rewrite in_app_iff. specialize (H7 Hf). destruct R as [_ [_ R]]. rewrite (R Hf). cbn [In]. tauto.
    + apply IH in H. destruct H as [cs [L [H1 H2]]]. exists cs, L. split; [constructor; assumption|exact H2].
Qed.

(** ** The metadata *)
Section Meta.
  Variable lang_check : cps -> option bool.
  Variable dig : N -> bool.
  Hypothesis dot_nodig : dig 46 = false.

  Definition lang : string := "metadata_language".
  Definition uni : string := "valid_unicode_version".
  Definition meta_reports (e : meta_elem) : list report :=
    match e with
    | MLanguageE t => match lang_check (value_of t) with Some true => [(lang, true)] | _ => [(lang, false); (lang, true)] end
    | MUnicodeE (Some v) => if version_prefix dig v then [] else [(uni, false)]
    | MOtherE => [("parse_xml", false)]
    | _ => []
    end.
  Lemma meta_elem_reports : forall force m rm e m' rm', process_meta_elem lang_check dig force m rm e = (m', rm', Ok tt) ->
    md_checks m' = apply_reports (md_checks m) (meta_reports e).
  Proof.
    intros force m rm e m' rm' H. destruct e as [t c|t|t|t|t|t|t ty|t ty|l|]; cbn [process_meta_elem meta_reports] in *.
    - injection H as <- _. reflexivity.
    - destruct t as [t|]; cbn [needs_text fst snd] in H; [|discriminate]. unfold md_set_date in H. destruct (validate_date t force); [|discriminate]. injection H as <- _. reflexivity.
    - destruct t as [t|]; cbn [needs_text fst snd] in H; [|discriminate]. unfold md_set_start in H. destruct (validate_date t force); [|discriminate]. injection H as <- _. reflexivity.
    - destruct t as [t|]; cbn [needs_text fst snd] in H; [|discriminate]. unfold md_set_end in H. destruct (validate_date t force); [|discriminate]. injection H as <- _. reflexivity.
    - destruct t as [t|]; cbn [needs_text fst snd] in H; [|discriminate]. unfold md_set_unicode_version in H.
      destruct (version_prefix dig t); [injection H as <- _; reflexivity|]. destruct force; [|discriminate]. injection H as <- _. reflexivity.
    - unfold md_add_language in H. destruct (lang_check (value_of t)) as [[]|]; cbn [negb andb fst snd] in H; [| |discriminate].
      + injection H as <- _. destruct (memb cps_eqb (value_of t) _); reflexivity.
      + destruct force; cbn [negb fst snd] in H; [|discriminate]. injection H as <- _. destruct (memb cps_eqb (value_of t) _); reflexivity.
    - injection H as <- _. reflexivity.
    - destruct t; [|discriminate]. injection H as <- _. reflexivity.
    - destruct (process_references rm l) as [rm1 x]. injection H as <- _ _. reflexivity.
    - injection H as <- _. reflexivity.
  Qed.
  Lemma meta_loop_reports : forall force l m rm m' rm', process_meta_loop lang_check dig force m rm l = (m', rm', Ok tt) ->
    md_checks m' = apply_reports (md_checks m) (flat_map meta_reports l).
  Proof.
    intros force. induction l as [|e l IH]; intros m rm m' rm' H; cbn [process_meta_loop flat_map] in *; [injection H as <- _; reflexivity|].
    destruct (process_meta_elem lang_check dig force m rm e) as [[m1 rm1] [[]|x]] eqn:E; [|discriminate].
    apply IH in H. apply meta_elem_reports in E. rewrite H, E, apply_app. reflexivity.
  Qed.
  Lemma meta_labels : forall l t b, In (t, b) (flat_map meta_reports l) -> t = lang \/ (t = uni /\ b = false) \/ (t = "parse_xml" /\ b = false).
  Proof.
    intros l t b H. apply in_flat_map in H. destruct H as [e [_ H]]. destruct e as [? ?|?|?|?|v|v|? ?|? ?|?|]; cbn [meta_reports] in H; try contradiction.
    - destruct v as [v|]; [|contradiction]. destruct (version_prefix dig v); [contradiction|]. destruct H as [H|[]]. injection H as <- <-. auto.
    - destruct (lang_check _) as [[]|]; cbn in H; intuition congruence.
    - destruct H as [H|[]]. injection H as <- <-. auto.
  Qed.
  Lemma meta_language : forall l, (In (lang, false) (flat_map meta_reports l) <-> exists t, In (MLanguageE t) l /\ lang_check (value_of t) <> Some true) /\
    (executed (flat_map meta_reports l) lang <-> exists t, In (MLanguageE t) l).
  Proof.
    intro l. split.
    - rewrite in_flat_map. split.
      + intros [e [He H]]. destruct e as [? ?|?|?|?|v|v|? ?|? ?|?|]; cbn [meta_reports] in H; try contradiction.
        * destruct v as [v|]; [|contradiction]. destruct (version_prefix dig v); [contradiction|]. destruct H as [H|[]]. discriminate.
        * exists v. split; [exact He|]. intro K. rewrite K in H. destruct H as [H|[]]. discriminate.
        * destruct H as [H|[]]. discriminate.
      + intros [t [H1 H2]]. exists (MLanguageE t). split; [exact H1|]. cbn [meta_reports]. destruct (lang_check _) as [[]|]; [contradiction|left; reflexivity|left; reflexivity].
    - split.
      + intros [b H]. apply in_flat_map in H. destruct H as [e [He H]]. destruct e as [? ?|?|?|?|v|v|? ?|? ?|?|]; cbn [meta_reports] in H; try contradiction.
        * destruct v as [v|]; [|contradiction]. destruct (version_prefix dig v); [contradiction|]. destruct H as [H|[]]. discriminate.
        * exists v. exact He.
        * destruct H as [H|[]]. discriminate.
      + intros [t H]. exists true. apply in_flat_map. exists (MLanguageE t). split; [exact H|]. cbn [meta_reports]. destruct (lang_check _) as [[]|]; cbn; auto.
  Qed.
  Lemma meta_unicode : forall l, In (uni, false) (flat_map meta_reports l) <-> exists v, In (MUnicodeE (Some v)) l /\ ~ starts_with_version dig v.
  Proof.
    intro l. rewrite in_flat_map. split.
    - intros [e [He H]]. destruct e as [? ?|?|?|?|v|v|? ?|? ?|?|]; cbn [meta_reports] in H; try contradiction.
      + destruct v as [v|]; [|contradiction]. destruct (version_prefix dig v) eqn:E; [contradiction|]. exists v. split; [exact He|].
        intro K. apply (version_prefix_iff dig dot_nodig) in K. congruence.
      + destruct (lang_check _) as [[]|]; cbn in H; intuition discriminate.
      + destruct H as [H|[]]. discriminate.
    - intros [v [H1 H2]]. exists (MUnicodeE (Some v)). split; [exact H1|]. cbn [meta_reports]. destruct (version_prefix dig v) eqn:E; [|left; reflexivity].
      apply (version_prefix_iff dig dot_nodig) in E. contradiction.
  Qed.
  Lemma meta_other : forall l, In ("parse_xml", false) (flat_map meta_reports l) <-> In MOtherE l.
  Proof.
    intro l. rewrite in_flat_map. split.
    - intros [e [He H]]. destruct e as [? ?|?|?|?|v|v|? ?|? ?|?|]; cbn [meta_reports] in H; try contradiction; [| |exact He].
      + destruct v as [v|]; [|contradiction]. destruct (version_prefix dig v); [contradiction|]. destruct H as [H|[]]. discriminate.
      + destruct (lang_check _) as [[]|]; cbn in H; intuition discriminate.
    - intro H. exists MOtherE. split; [exact H|left; reflexivity].
  Qed.

  (** ** The document *)
  Lemma tells_reports : forall L t P, executed L t -> (In (t, false) L <-> ~ P) -> (~ ~ P -> P) -> tells (apply_reports [] L) t P.
  Proof.
    intros L t P He Hf Hd. destruct (apply_get_empty L t) as [_ [F T]]. unfold tells. rewrite F, T. unfold failed. tauto.
  Qed.
  Lemma no_break : forall (P : cps -> cps -> Prop) l, (forall a b, follows a b l -> P a b) -> ~ breaks (fun a b => ~ P a b) l.
  Proof. intros P l H [a [b [K1 K2]]]. exact (K2 (H a b K1)). Qed.

  Lemma before_dec : forall a b, before a b \/ ~ before a b.
  Proof. intros a b. destruct (cps_leb b a) eqn:E; [right; intro K; apply leb_before in K; congruence|left; apply leb_before; exact E]. Qed.
  Lemma begins_dec : forall a b, begins a b \/ ~ begins a b.
  Proof. intros a b. destruct (cps_eq_dec (firstn (length a) b) a); [left|right; intro K]; [apply begins_firstn; assumption|apply begins_firstn in K; contradiction]. Qed.

  Theorem document_reports : forall db allow force x m g,
    parse_document lang_check dig db allow force x = (Some (m, g), Ok tt) ->
    exists cs, chars_of (x_data x) cs /\ let r := md_checks m in
      tells r "explicit_unicode_version" (exists t, In (MUnicodeE t) (x_meta x)) /\
      tells r "char_ascending_order" (forall a b, follows a b ([] :: cs) -> before a b \/ begins b a) /\
      tells r "char_strict_ascending_order" (forall a b, follows a b ([] :: cs) -> ~ begins b a) /\
      (dget String.eqb "valid_unicode_version" r = Some false <-> exists v, In (MUnicodeE (Some v)) (x_meta x) /\ ~ starts_with_version dig v) /\
      dget String.eqb "valid_unicode_version" r <> Some true /\
      (dget String.eqb "metadata_language" r = None <-> forall t, ~ In (MLanguageE t) (x_meta x)) /\
      (dget String.eqb "metadata_language" r = Some false <-> exists t, In (MLanguageE t) (x_meta x) /\ lang_check (value_of t) <> Some true) /\
      dget String.eqb "codepoint_valid" r <> Some true /\
      tells r "parse_xml" (~ In MOtherE (x_meta x) /\ dget String.eqb "codepoint_valid" r = None) /\
      (force = false -> dget String.eqb "codepoint_valid" r = None).
  Proof.
    intros db allow force x m g H. unfold parse_document, process_meta in H.
    destruct (process_meta_loop lang_check dig force new_metadata RefModel.empty_refman (x_meta x)) as [[m1 rm1] [[]|e]] eqn:E1; [|discriminate].
    apply meta_loop_reports in E1. cbn [new_metadata md_checks] in E1.
    cbn [set_md_checks md_checks] in H. unfold process_data in H.
    match type of H with context [process_data_loop force ?g0 ?r0 [] ?l] => destruct (process_data_loop force g0 r0 [] l) as [[g2 r2] [[]|e]] eqn:E2; [|discriminate] end.
    injection H as <- <-. cbn [set_md_checks md_checks]. apply data_reports in E2.
    destruct E2 as [cs [L [D1 [-> [D3 [D4 [D5 [D6 D7]]]]]]]]. exists cs. split; [exact D1|]. cbv zeta.
    set (b := existsb is_unicode_elem (x_meta x)) in *.
    set (M := flat_map meta_reports (x_meta x)) in *.
    match goal with |- tells ?r _ _ /\ _ =>
      assert (Er : r = apply_reports [] (M ++ [("explicit_unicode_version", b)] ++ L ++ [(asc, true); (strict, true); ("parse_xml", true)])) end.
    { rewrite !apply_app. rewrite E1. reflexivity. }
    rewrite Er. clear Er E1. set (A := M ++ [("explicit_unicode_version", b)] ++ L ++ [(asc, true); (strict, true); ("parse_xml", true)]).
    assert (Hin : forall t c, In (t, c) A <-> In (t, c) M \/ (t, c) = ("explicit_unicode_version", b) \/ In (t, c) L \/
       (c = true /\ (t = asc \/ t = strict \/ t = "parse_xml"))).
    { intros t c. unfold A. rewrite !in_app_iff. cbn [In]. intuition congruence. }
    assert (HM : forall t c, In (t, c) M -> t = lang \/ (t = uni /\ c = false) \/ (t = "parse_xml" /\ c = false)) by (intros t c; apply meta_labels).
    assert (HL : forall t c, In (t, c) L -> t = asc \/ t = strict \/ t = "parse_xml" \/ t = "codepoint_valid").
    { intros t c K. apply D3 in K. destruct K as [_ [K|[K|K]]]; auto. cbn in K. destruct K as [K|[K|[]]]; injection K as <- _; auto. }
    assert (LF : forall t, ~ In (t, true) L) by (intros t K; apply D3 in K; destruct K; discriminate).
    destruct (meta_language (x_meta x)) as [ML1 ML2]. pose proof (meta_unicode (x_meta x)) as MU. pose proof (meta_other (x_meta x)) as MO.
    fold M in ML1, ML2, MU, MO.
    assert (Hcv : dget String.eqb "codepoint_valid" (apply_reports [] A) = None <-> ~ In ("codepoint_valid", false) L).
    { rewrite (proj1 (apply_get_empty A "codepoint_valid")). unfold executed. split.
      - intros K K'. apply K. exists false. apply Hin. auto.
      - intros K [c K']. apply Hin in K'. destruct K' as [K'|[K'|[K'|[_ K']]]].
        + apply HM in K'. unfold lang, uni in K'. intuition discriminate.
        + discriminate.
        + destruct c; [exact (LF _ K')|contradiction].
        + unfold asc, strict in K'. intuition discriminate. }
    split; [|split; [|split; [|split; [|split; [|split; [|split; [|split; [|split]]]]]]]].
    - apply tells_reports.
      + exists b. apply Hin. auto.
      + rewrite Hin.
        assert (Hb : b = true <-> exists t, In (MUnicodeE t) (x_meta x)).
        { unfold b. rewrite existsb_exists. split.
          - intros [e [H1 H2]]. destruct e; try discriminate. eauto.
          - intros [t H1]. exists (MUnicodeE t). auto. }
        split.
        * intros [K|[K|[K|[K _]]]]; [apply HM in K; unfold lang, uni in K; intuition discriminate| |apply HL in K; unfold asc, strict in K; intuition discriminate|discriminate].
          injection K as K. intro K'. apply Hb in K'. congruence.
        * intro K. right. left. f_equal. symmetry. destruct b; [exfalso; apply K, Hb; reflexivity|reflexivity].
      + unfold not. intro K. destruct (existsb is_unicode_elem (x_meta x)) eqn:Eb.
        * apply existsb_exists in Eb. destruct Eb as [e [H1 H2]]. destruct e; try discriminate. eauto.
        * exfalso. apply K. intros [t H1]. assert (existsb is_unicode_elem (x_meta x) = true) by (apply existsb_exists; exists (MUnicodeE t); auto). congruence.
    - apply tells_reports.
      + exists true. apply Hin. auto 10.
      + assert (E : In (asc, false) A <-> In (asc, false) L).
        { rewrite Hin. split; [|auto]. intros [K|[K|[K|[K _]]]]; [apply HM in K; unfold lang, uni, asc in K; intuition discriminate|discriminate|exact K|discriminate]. }
        rewrite E, D4. split.
        * intros [a [c [K1 K2]]] K. specialize (K a c K1). tauto.
        * intro K. destruct (in_dec (fun p q : report => ltac:(repeat decide equality)) (asc, false) L) as [Hi|Hi]; [apply D4; exact Hi|].
          exfalso. apply K. intros a c K1. destruct (before_dec a c); [auto|]. destruct (begins_dec c a); [auto|]. exfalso. apply Hi, D4. exists a, c. auto.
      + intros K a c K1. destruct (before_dec a c); [auto|]. destruct (begins_dec c a); [auto|]. exfalso. apply K. intro K2. destruct (K2 a c K1); contradiction.
    - apply tells_reports.
      + exists true. apply Hin. auto 10.
      + assert (E : In (strict, false) A <-> In (strict, false) L).
        { rewrite Hin. split; [|auto]. intros [K|[K|[K|[K _]]]]; [apply HM in K; unfold lang, uni, strict in K; intuition discriminate|discriminate|exact K|discriminate]. }
        rewrite E, D5. split.
        * intros [a [c [K1 K2]]] K. exact (K a c K1 K2).
        * intro K. destruct (in_dec (fun p q : report => ltac:(repeat decide equality)) (strict, false) L) as [Hi|Hi]; [apply D5; exact Hi|].
          exfalso. apply K. intros a c K1 K2. apply Hi, D5. exists a, c. auto.
      + intros K a c K1 K2. apply K. intro K3. exact (K3 a c K1 K2).
    - rewrite (proj1 (proj2 (apply_get_empty A "valid_unicode_version"))), <- MU. unfold failed. rewrite Hin. split; [|auto].
      intros [K|[K|[K|[K _]]]]; [exact K|discriminate|apply HL in K; unfold asc, strict in K; intuition discriminate|discriminate].
    - rewrite (proj2 (proj2 (apply_get_empty A "valid_unicode_version"))). unfold executed, failed. intros [[c K] K']. apply K'.
      apply Hin in K. destruct K as [K|[K|[K|[_ K]]]].
      + pose proof (HM _ _ K) as K2. unfold lang, uni in K2. assert (c = false) by (destruct K2 as [K2|[[_ K2]|[K2 _]]]; [discriminate|exact K2|discriminate]). subst c. apply Hin. auto.
      + discriminate.
      + apply HL in K. unfold asc, strict in K. intuition discriminate.
      + unfold asc, strict in K. intuition discriminate.
    - rewrite (proj1 (apply_get_empty A "metadata_language")).
      assert (E : executed A "metadata_language" <-> executed M lang).
      { unfold executed. split; intros [c K]; exists c; [|apply Hin; auto]. apply Hin in K.
        destruct K as [K|[K|[K|[_ K]]]]; [exact K|discriminate|apply HL in K; unfold asc, strict in K; intuition discriminate|unfold asc, strict in K; intuition discriminate]. }
      rewrite E, ML2. split; [intros K t K'; apply K; eauto|intros K [t K']; exact (K t K')].
    - rewrite (proj1 (proj2 (apply_get_empty A "metadata_language"))), <- ML1. unfold failed. rewrite Hin. split; [|auto].
      intros [K|[K|[K|[K _]]]]; [exact K|discriminate|apply HL in K; unfold asc, strict in K; intuition discriminate|discriminate].
    - rewrite (proj2 (proj2 (apply_get_empty A "codepoint_valid"))). unfold executed, failed. intros [[c K] K']. apply K'.
      apply Hin in K. destruct K as [K|[K|[K|[_ K]]]].
      + apply HM in K. unfold lang, uni in K. intuition discriminate.
      + discriminate.
      + destruct c; [exfalso; exact (LF _ K)|apply Hin; auto].
      + unfold asc, strict in K. intuition discriminate.
    - assert (E : In ("parse_xml", false) A <-> In MOtherE (x_meta x) \/ In ("parse_xml", false) L).
      { rewrite Hin, <- MO. split; [|tauto]. intros [K|[K|[K|[K _]]]]; [auto|discriminate|auto|discriminate]. }
      assert (Dl : In ("codepoint_valid", false) L \/ ~ In ("codepoint_valid", false) L).
      { destruct (in_dec (fun p q : report => ltac:(repeat decide equality)) ("codepoint_valid", false) L); auto. }
      assert (Dm : In ("parse_xml", false) M \/ ~ In ("parse_xml", false) M).
      { destruct (in_dec (fun p q : report => ltac:(repeat decide equality)) ("parse_xml", false) M); auto. }
      apply tells_reports; [exists true; apply Hin; auto 10| |]; rewrite Hcv; rewrite ?E, ?D6; tauto.
    - intro Hf. apply Hcv. rewrite <- D6. auto.
  Qed.

  Theorem sorted_reports : forall db allow force x m g,
    parse_document lang_check dig db allow force x = (Some (m, g), Ok tt) ->
    exists cs, chars_of (x_data x) cs /\
      ((dget String.eqb "char_ascending_order" (md_checks m) = Some true /\ dget String.eqb "char_strict_ascending_order" (md_checks m) = Some true) <->
       forall a b, follows a b ([] :: cs) -> before a b).
  Proof.
    intros db allow force x m g H. destruct (document_reports _ _ _ _ _ _ H) as [cs [H1 [_ [[H2 _] [[H3 _] _]]]]].
    exists cs. split; [exact H1|]. rewrite H2, H3. split.
    - intros [K1 K2] a b K. destruct (K1 a b K); [assumption|]. exfalso. exact (K2 a b K H0).
    - intro K. split; intros a b Hf; [left; auto|]. intro Hb. exact (begins_not_before _ _ Hb (K a b Hf)).
  Qed.
End Meta.
