(** Proofs about the annotation of labels. *)
From Verif Require Import Base BaseFacts CharModel RepSpec RepProofs ActionModel ActionSpec LabelModel LabelSpec LabelProofs LabelElig LabelFinal UtilsModel UtilsProofs CollisionModel AnnotateModel AnnotateSpec AnnotateRead.
Open Scope string_scope.
Open Scope list_scope.

Lemma each_reading_ok : forall f l, (forall x, In x l -> snd (f x) = Ok tt) ->
  exists gs, each_reading f l = (concat gs, Ok tt) /\ Forall2 (fun x g => f x = (g, Ok tt)) l gs.
Proof.
  intros f l. induction l as [|x l IH]; intro H; [exists []; split; auto|].
  destruct IH as [gs [H1 H2]]; [intros y Hy; apply H; right; exact Hy|].
  assert (Hx : f x = (fst (f x), Ok tt)) by (rewrite <- (H x (or_introl eq_refl)); destruct (f x); reflexivity).
  exists (fst (f x) :: gs). cbn [each_reading concat]. rewrite Hx, H1. auto.
Qed.
Lemma each_reading_inv : forall f l ns, each_reading f l = (ns, Ok tt) ->
  exists gs, ns = concat gs /\ Forall2 (fun x g => f x = (g, Ok tt)) l gs.
Proof.
  intros f l. induction l as [|x l IH]; intros ns H; cbn [each_reading] in H.
  - injection H as <-. exists []. auto.
  - destruct (f x) as [g o] eqn:E. destruct o as [[]|e]; [|discriminate]. destruct (each_reading f l) as [ms o'].
    injection H as <- ->. destruct (IH ms eq_refl) as [gs [-> H2]]. exists (g :: gs). auto.
Qed.

(** Every reported rule has a name. *)
Lemma named_rules_ok : forall l, ~ In None l -> exists names, named_rules l = Ok names /\ l = map Some names.
Proof.
  induction l as [|[s|] l IH]; intro H; [exists []; auto| |exfalso; apply H; left; auto].
  destruct IH as [names [H1 H2]]; [intro Hx; apply H; right; exact Hx|]. exists (s :: names). cbn [named_rules map]. rewrite H1. cbn [bind].
  split; [reflexivity|congruence].
Qed.
Definition reasons_named (inv : list (N * option (list (option string)))) : Prop :=
  forall x l, In (x, Some l) inv -> ~ In None l.
Lemma reasons_are_named : forall rm r label chars inv, rules_named r -> longest_match rm r label 0 chars inv -> reasons_named inv.
Proof.
  intros rm r label chars inv Hn Hm x l Hin Hnone.
  destruct (longest_match_reasons rm r label 0 chars inv Hm x (Some l) Hin) as [j [_ [Ha [_ Hr]]]].
  apply Hr in Hnone. destruct Hnone as [ch [He [Ho Hrep]]]. apply (Ha ch). split; [exact He|]. split; [exact Ho|].
  destruct (Hn ch He) as [N1 N2]. unfold context_holds. destruct Hrep as [[Ht Hs]|[Ht Hs]].
  - rewrite <- Hs in Ht. discriminate.
  - destruct (ch_when ch) as [w|]; [|rewrite <- Hs; exact I]. exfalso. destruct w; [apply N1; reflexivity|discriminate].
Qed.
Lemma out_parts_ok : forall inv, reasons_named inv -> exists ns, out_parts inv = (ns, Ok tt) /\ Forall2 reason_note inv ns.
Proof.
  induction inv as [|[x reason] inv IH]; intro H; [exists []; auto|].
  destruct IH as [ns [H1 H2]]; [intros y l Hy; apply (H y l); right; exact Hy|].
  cbn [out_parts]. destruct reason as [l|].
  - destruct (named_rules_ok l) as [names [N1 N2]]; [apply (H x l); left; reflexivity|]. rewrite N1, H1.
    eexists. split; [reflexivity|]. constructor; auto. unfold reason_note. cbn. eauto.
  - rewrite H1. eexists. split; [reflexivity|]. constructor; auto. reflexivity.
Qed.
Lemma named_rules_inv : forall l names, named_rules l = Ok names -> l = map Some names.
Proof.
  induction l as [|[s|] l IH]; intros names H; cbn [named_rules] in H; [injection H as <-; reflexivity| |discriminate].
  destruct (named_rules l) as [x|]; cbn [bind] in H; [|discriminate]. injection H as <-. cbn [map]. f_equal. auto.
Qed.
Lemma out_parts_inv : forall inv ns, out_parts inv = (ns, Ok tt) -> Forall2 reason_note inv ns /\ forall n, In n ns -> is_rule_note n = false.
Proof.
  induction inv as [|[x reason] inv IH]; intros ns H; cbn [out_parts] in H.
  - injection H as <-. split; [constructor|intros n []].
  - destruct reason as [l|].
    + destruct (named_rules l) as [names|] eqn:E; [|discriminate]. destruct (out_parts inv) as [ms o]. injection H as <- ->.
      destruct (IH ms eq_refl) as [H1 H2]. split; [constructor; auto; unfold reason_note; cbn; exists names; split; auto; apply named_rules_inv; exact E|].
      intros n [<-|Hn]; auto.
    + destruct (out_parts inv) as [ms o]. injection H as <- ->. destruct (IH ms eq_refl) as [H1 H2].
      split; [constructor; auto; reflexivity|]. intros n [<-|Hn]; auto.
Qed.

(** The result of the eligibility test, as the specification has it. *)
Lemma eligibility_outcome : forall rm r acts label, reachable r -> label <> [] ->
  exists e by_, test_label_eligible rm r acts label false = Ok e /\ outcome rm r acts label (el_disp e) (el_invalid e) by_ /\
    match by_ with
    | None => el_ok e = false /\ el_idx e = (-1)%Z
    | Some (i, a) => el_idx e = Z.of_nat i /\ (el_ok e = true <-> a_disp a <> "invalid") /\ nth_error (effective_actions acts) i = Some a
    end.
Proof.
  intros rm r acts label Hr Hne. destruct (test_label_eligible_spec rm r acts label false Hr Hne) as [e [chars [inv [H1 [H2 [H3 [H4 H5]]]]]]].
  subst inv. destruct H5 as [[A1 [A2 [_ [A3 A4]]]]|[A1 [ds [only [a [i [B1 [B2 [B3 [B4 [B5 [B6 B7]]]]]]]]]]]].
  - exists e, None. split; auto. split; [exists chars; auto|auto].
  - exists e, (Some (i, a)). split; auto. split; [|split; auto; split; auto; apply B3].
    exists chars. split; auto. split; auto. split; auto. exists ds, only. split; [intro t; rewrite B1; tauto|auto].
Qed.

Lemma annotate_reading_spec : forall rm r acts x, reachable r -> rules_named r -> (rd_valid x = true -> rd_label x <> []) ->
  (rd_valid x = false -> rd_label x = rd_text x) ->
  exists ns, annotate_reading rm r acts x = (ns, Ok tt) /\ annotation rm r acts x ns.
Proof.
  intros rm r acts x Hr Hn Hne Hbad. unfold annotate_reading, annotation. destruct (rd_valid x) eqn:Ev.
  - destruct (eligibility_outcome rm r acts (rd_label x) Hr (Hne eq_refl)) as [e [by_ [H1 [H2 H3]]]]. rewrite H1.
    assert (Hparts : exists rest, out_parts (el_invalid e) = (rest, Ok tt) /\ Forall2 reason_note (el_invalid e) rest).
    { destruct H2 as [chars [Hm _]]. apply out_parts_ok. eapply reasons_are_named; eauto. }
    destruct Hparts as [rest [P1 P2]]. unfold out_valid_label. rewrite P1. destruct by_ as [[i a]|].
    + destruct H3 as [I1 [I2 I3]]. pose proof H2 as [chars [Hm [Hinv [Hd _]]]]. rewrite Hinv in P2. inversion P2; subst rest. clear P2.
      rewrite I1. destruct (el_ok e) eqn:Eo.
      * eexists. split; [reflexivity|]. right. split; auto. exists (el_disp e), (el_invalid e), (Some (i, a)), []. split; auto. split; auto.
        destruct (String.eqb_spec (a_disp a) "invalid") as [E|E]; auto. exfalso. apply (proj1 I2 eq_refl). exact E.
      * assert (Ei : a_disp a = "invalid") by (destruct (string_dec (a_disp a) "invalid") as [E|E]; auto; apply I2 in E; discriminate).
        destruct (Z.ltb_spec 0 (Z.of_nat i)) as [L|L].
        -- rewrite Nat2Z.id, I3. eexists. split; [reflexivity|]. right. split; auto.
           exists (el_disp e), (el_invalid e), (Some (i, a)), [ByRule (Z.of_nat i) a]. split; auto. split; auto. rewrite Ei. cbn.
           destruct i; [lia|reflexivity].
        -- eexists. split; [reflexivity|]. right. split; auto. exists (el_disp e), (el_invalid e), (Some (i, a)), []. split; auto. split; auto.
           rewrite Ei. cbn. destruct i; [reflexivity|lia].
    + destruct H3 as [O1 O2]. rewrite O1, O2. cbn [Z.ltb Z.compare]. eexists. split; [reflexivity|]. right. split; auto.
      exists (el_disp e), (el_invalid e), None, rest. auto.
  - eexists. split; [reflexivity|]. left. rewrite Hbad by auto. auto.
Qed.

(** Readings of a list are never empty labels, given a decoder that gives none. *)
Lemma readings_fine : forall decode lines x, (forall s, decode s <> Ok []) -> In x (fst (read_labels decode false false lines)) ->
  rd_text x <> [] /\ read_properly decode (rd_text x) x /\ (rd_valid x = true -> rd_label x <> []) /\ (rd_valid x = false -> rd_label x = rd_text x).
Proof.
  intros decode lines x Hd Hin. destruct (read_labels_spec decode false lines) as [gs [H1 H2]]. rewrite H1 in Hin. cbn [fst] in Hin.
  apply in_concat in Hin. destruct Hin as [g [Hg Hx]].
  assert (Hl : exists line, line_reading decode false line g).
  { clear H1. induction H2 as [|l g' ls gs' Hl _ IH]; [contradiction|]. destruct Hg as [->|Hg]; [eauto|auto]. }
  destruct Hl as [line [text [Hc [L1 L2]]]]. destruct text as [|c t] eqn:Et.
  - destruct (L2 eq_refl) as [L3 _]. rewrite L3 in Hx by auto. contradiction.
  - destruct L1 as [y [-> Hy]]; [discriminate|]. destruct Hx as [<-|[]]. rewrite <- Et in Hy, Hc.
    pose proof Hy as [Ht Hcases]. rewrite Ht. split; [rewrite Et; discriminate|]. split; [exact Hy|].
    destruct Hcases as [[V1 [V2 V3]]|[V1 [V2 [V3 V4]]]]; split; intro Hv; try congruence.
    apply (read_as_nonempty decode text (rd_label y) Hd); auto; [rewrite Et; discriminate|].
    destruct Hc as [k [pre [post [tail [_ [_ [_ [_ [_ [Htr _]]]]]]]]]]. exact Htr.
Qed.

Lemma annotate_spec : forall decode rm r acts lines, (forall s, decode s <> Ok []) -> reachable r -> rules_named r ->
  exists groups, annotate decode rm r acts lines = (concat groups, Ok tt) /\
    Forall2 (annotation rm r acts) (fst (read_labels decode false false lines)) groups.
Proof.
  intros decode rm r acts lines Hd Hr Hn. unfold annotate.
  assert (Hall : forall x, In x (fst (read_labels decode false false lines)) -> exists ns, annotate_reading rm r acts x = (ns, Ok tt) /\ annotation rm r acts x ns).
  { intros x Hx. destruct (readings_fine decode lines x Hd Hx) as [_ [_ [H1 H2]]]. apply annotate_reading_spec; auto. }
  destruct (each_reading_ok (annotate_reading rm r acts) (fst (read_labels decode false false lines))) as [gs [H1 H2]].
  { intros x Hx. destruct (Hall x Hx) as [ns [H _]]. rewrite H. reflexivity. }
  exists gs. split; auto. clear H1. revert gs H2. induction (fst (read_labels decode false false lines)) as [|x l IH]; intros gs H2; inversion H2 as [|? g ? gs' Hg Hr2]; subst; constructor.
  - destruct (Hall x (or_introl eq_refl)) as [ns [H3 H4]]. assert (ns = g) by congruence. subst. exact H4.
  - apply IH; auto. intros y Hy. apply Hall. right. exact Hy.
Qed.

(** ** With a set of labels *)
Lemma filter_set_spec : forall rm r l, reachable r -> (forall x, In x l -> rd_valid x = false -> rd_label x = rd_text x) ->
  exists kept ns, filter_set rm r l = (kept, (ns, Ok tt)) /\ filtered rm r l kept ns.
Proof.
  intros rm r l Hr. induction l as [|x l IH]; intro Hb; [exists [], []; split; [reflexivity|constructor]|].
  destruct IH as [k [ns [H1 H2]]]; [intros y Hy; apply Hb; right; exact Hy|]. cbn [filter_set]. rewrite H1. destruct (rd_valid x) eqn:Ev.
  - destruct (preliminary_spec rm r (rd_label x) Hr) as [p [P1 [P2 [_ P3]]]]. rewrite P1. destruct (pr_ok p) eqn:Ep.
    + exists (rd_label x :: k), ns. split; auto. assert (Hi : pr_invalid p = []) by (apply P3; reflexivity). rewrite Hi in P2. econstructor; eauto.
    + exists k, (SetInvalid (rd_label x) :: ns). split; auto. econstructor; eauto. intro Hi. apply P3 in Hi. discriminate.
  - eexists k, (_ :: ns). split; [reflexivity|]. rewrite (Hb x (or_introl eq_refl) Ev). constructor; auto.
Qed.

Lemma set_reading_inv : forall srm sr sacts acts index listing kept x g, reachable sr -> (rd_valid x = true -> rd_label x <> []) ->
  (rd_valid x = false -> rd_label x = rd_text x) ->
  set_annotate_reading srm sr acts sacts index listing kept x = (g, Ok tt) ->
  set_annotation_lines srm sr sacts index listing kept x g.
Proof.
  intros srm sr sacts acts index listing kept x g Hr Hne Hbad H. unfold set_annotate_reading in H. unfold set_annotation_lines.
  destruct (rd_valid x) eqn:Ev.
  - destruct (eligibility_outcome srm sr sacts (rd_label x) Hr (Hne eq_refl)) as [e [by_ [H1 [H2 H3]]]]. rewrite H1 in H.
    destruct (if el_ok e then set_annotation index listing kept (rd_label x) else Ok NoCollision) as [v|] eqn:Es; [|discriminate].
    right. split; auto. assert (Hv : if ostring_eqb (el_disp e) (Some "invalid") then v = NoCollision else set_annotation index listing kept (rd_label x) = Ok v).
    { pose proof H2 as [chars [_ Hd]]. destruct by_ as [[i a]|].
      - destruct Hd as [_ [-> _]]. destruct H3 as [_ [Hok _]]. destruct (ostring_eqb (Some (a_disp a)) (Some "invalid")) eqn:Eo.
        + apply ostring_eqb_eq in Eo. injection Eo as Eo. destruct (el_ok e); [|congruence]. exfalso. apply (proj1 Hok eq_refl). exact Eo.
        + assert (Hx : el_ok e = true). { apply Hok. intro Hx. rewrite Hx in Eo. discriminate. } rewrite Hx in Es. exact Es.
      - destruct Hd as [_ ->]. destruct H3 as [Hx _]. rewrite Hx in Es. cbn. congruence. }
    unfold out_valid_label in H.
    assert (Hgo : exists rest, g = Verdict (rd_label x) (el_disp e) v :: rest /\ Forall2 reason_note (el_invalid e) (filter (fun n => negb (is_rule_note n)) rest)).
    { assert (Hf : forall ns, (forall n, In n ns -> is_rule_note n = false) -> filter (fun n => negb (is_rule_note n)) ns = ns).
      { induction ns as [|n ns IH]; intro Hall; auto. cbn [filter]. rewrite (Hall n (or_introl eq_refl)). cbn [negb]. f_equal. apply IH. intros m Hm. apply Hall. right. exact Hm. }
      destruct (out_parts (el_invalid e)) as [ns o] eqn:Eo.
      destruct (if el_ok e then false else (0 <? el_idx e)%Z).
      - destruct (nth_error (effective_actions acts) (Z.to_nat (el_idx e))) as [a|]; [|discriminate]. injection H as <- ->.
        destruct (out_parts_inv _ _ Eo) as [O1 O2]. eexists. split; [reflexivity|]. cbn [filter is_rule_note negb]. rewrite Hf; auto.
      - injection H as <- ->. destruct (out_parts_inv _ _ Eo) as [O1 O2]. eexists. split; [reflexivity|]. rewrite Hf; auto. }
    destruct Hgo as [rest [-> G2]]. exists (el_disp e), (el_invalid e), by_, v, rest. auto.
  - left. injection H as <-. rewrite Hbad by auto. auto.
Qed.

Lemma set_annotate_spec : forall decode rm srm r sr acts sacts index listing set_lines lines out,
  (forall s, decode s <> Ok []) -> reachable r -> reachable sr ->
  lgr_set_annotate decode rm srm r sr acts sacts index listing set_lines lines = (out, Ok tt) ->
  exists kept ns groups, filtered rm r (fst (read_labels decode false false set_lines)) kept ns /\
    out = SetHeader :: ns ++ SetFooter :: concat groups /\
    Forall2 (set_annotation_lines srm sr sacts index listing kept) (fst (read_labels decode false false lines)) groups.
Proof.
  intros decode rm srm r sr acts sacts index listing set_lines lines out Hd Hr Hsr H. unfold lgr_set_annotate in H.
  destruct (filter_set_spec rm r (fst (read_labels decode false false set_lines)) Hr) as [k [ns [F1 F2]]].
  { intros x Hx. apply (readings_fine decode set_lines x Hd Hx). }
  rewrite F1 in H.
  destruct (each_reading (set_annotate_reading srm sr acts sacts index listing k) (fst (read_labels decode false false lines))) as [ms o] eqn:E.
  injection H as <- ->. destruct (each_reading_inv _ _ _ E) as [gs [-> G]]. exists k, ns, gs. split; auto. split; auto.
  assert (Hall := fun x Hx => readings_fine decode lines x Hd Hx). clear E.
  revert gs G. induction (fst (read_labels decode false false lines)) as [|x l IH]; intros gs G; inversion G as [|? g ? gs' Hg Hrest]; subst; constructor.
  - destruct (Hall x (or_introl eq_refl)) as [_ [_ [A1 A2]]]. eapply set_reading_inv; eauto.
  - apply IH; auto. intros y Hy. apply Hall. right. exact Hy.
Qed.
