(** Labels of the union and of the intersection. *)
From Verif Require Import Base BaseFacts CharModel RepSpec RepProofs ActionModel LabelModel LabelSpec LabelProofs LabelElig LabelIndex LabelFinal LgrModel LgrSpec LgrReach LgrInv
  CompareModel CompareSpec CompareProofs CompareFinal ValidateSpec CombineSpec CombineIndex CompareLabelSpec.
Open Scope list_scope.

Lemma tested : forall rm d acts label, lgr_reachable (doc_lgr d) -> label <> [] ->
  exists chars inv, longest_match rm (lg_rep (doc_lgr d)) label 0 chars inv /\ (no_complaint rm d acts label <-> inv = []).
Proof.
  intros rm d acts label R N. destruct (test_label_eligible_spec rm (lg_rep (doc_lgr d)) acts label false (lgr_reachable_rep _ R) N) as [e [chars [inv [H1 [H2 [_ [H4 _]]]]]]].
  exists chars, inv. split; [exact H2|]. unfold no_complaint. split.
  - intros [e' [E1 E2]]. congruence.
  - intros ->. eauto.
Qed.
Lemma tested_nonempty : forall rm d acts label, no_complaint rm d acts label -> label <> [].
Proof. intros rm d acts label [e [H _]] ->. cbn in H. discriminate. Qed.

Lemma cut_made : forall rm r label (P : cps -> nat -> Prop), (forall i ch, applies rm r label i ch -> P (ch_cp ch) i) ->
  forall i chars, cut rm r label i chars -> (i <= length label)%nat -> made_of P i (skipn i label).
Proof.
  intros rm r label P HP i chars C. induction C as [|i ch l A C IH]; intro Hi.
  - rewrite skipn_all. constructor.
  - pose proof A as [E [O _]]. pose proof (occurs_length _ _ _ O) as Hl. destruct (proj1 (occurs_skipn label i _ Hi) O) as [post Hp].
    assert (Hr : skipn (i + length (ch_cp ch)) label = post).
    { rewrite Nat.add_comm, <- skipn_skipn, Hp. apply skipn_app_len. }
    rewrite Hp. constructor; [|apply HP; exact A|].
    + exact (entry_nonempty r ch E).
    + rewrite <- Hr. apply IH. lia.
Qed.

(** A test passes wherever each code point by itself can be used. *)
Lemma always_applies : forall rm r label, (forall i x, nth_error label i = Some x -> exists ch, entry r ch /\ ch_cp ch = [x] /\ applies rm r label i ch) ->
  forall i chars inv, longest_match rm r label i chars inv -> inv = [].
Proof.
  intros rm r label H i chars inv L. induction L as [| |i x reason l inv Hx Hn _ _ _]; auto.
  destruct (H _ _ Hx) as [ch [_ [_ A]]]. destruct (Hn _ A).
Qed.
Lemma nth_occurs : forall (label : cps) i x, nth_error label i = Some x -> occurs_at label i [x].
Proof. intros label i x H. apply nth_error_split in H. destruct H as [a [b [H1 H2]]]. exists a, b. auto. Qed.

Lemma single_cut : forall rm r label, (forall ch, entry r ch -> exists x, ch_cp ch = [x]) -> forall i chars, cut rm r label i chars ->
  forall j x, (i <= j)%nat -> nth_error label j = Some x -> exists ch, entry r ch /\ ch_cp ch = [x] /\ context_holds rm (ch_when ch) (ch_not_when ch) [x] label j.
Proof.
  intros rm r label S1 i chars C. induction C as [|i ch l A C IH]; intros j x Hij Hj.
  - assert (j < length label)%nat by (apply nth_error_Some; congruence). lia.
  - destruct A as [E [O K]]. destruct (S1 _ E) as [y Y]. rewrite Y in *. cbn [length] in IH. destruct (Nat.eq_dec i j) as [<-|N].
    + destruct O as [pre [post [O1 O2]]]. assert (x = y) by (subst; rewrite nth_error_app2 in Hj by lia; rewrite Nat.sub_diag in Hj; cbn in Hj; congruence).
      subst y. exists ch. auto.
    + apply IH; [lia|exact Hj].
Qed.

Section Two.
  Variables (o : orders) (today : cps) (d1 d2 d : doc).
  Hypotheses (Po : permutes o) (I1 : input_ok d1) (I2 : input_ok d2).

  Lemma entry_at : forall g c ch, lookup (lg_rep g) c = Some ch -> ch_cp ch = c.
  Proof. intros g c ch H. rewrite lookup_lk in H. apply (lk_cp _ _ _ H). Qed.

  Section Inter.
    Hypothesis H : intersection_is o today d1 d2 d.
    Lemma inter_reach : lgr_reachable (doc_lgr d).
    Proof. apply (if_reachable _ _ _ _ _ (inter_facts_of o today d1 d2 d Po I1 I2 H)). Qed.
    Lemma inter_entry : forall c ch, entry_of d c = Some ch -> both_have d1 d2 c /\ ch_cp ch = c /\ ch_when ch = None /\ ch_not_when ch = None.
    Proof.
      intros c ch E. pose proof (if_entries _ _ _ _ _ (inter_facts_of o today d1 d2 d Po I1 I2 H) c) as F. unfold both_have.
      destruct (entry_of d1 c), (entry_of d2 c); try congruence. destruct F as [ch' [F1 F2]]. assert (ch' = ch) by congruence. subst ch'.
      destruct F2 as [A [_ [_ [_ [_ [B [C _]]]]]]]. repeat split; auto; discriminate.
    Qed.
    Theorem inter_made : forall rm acts label, no_complaint rm d acts label -> made_of (fun c _ => both_have d1 d2 c) 0 label.
    Proof.
      intros rm acts label N. pose proof (tested_nonempty _ _ _ _ N) as Ne. destruct (tested rm d acts label inter_reach Ne) as [chars [inv [L E]]].
      apply E in N. pose proof (longest_match_cut _ _ _ _ _ _ L N) as C. apply (cut_made _ _ _ (fun c _ => both_have d1 d2 c)) in C; [exact C| |lia].
      intros i ch [A _]. apply (inter_entry (ch_cp ch) ch A).
    Qed.
    Theorem inter_passes : forall rm acts label, label <> [] -> (forall x, In x label -> both_have d1 d2 [x]) -> no_complaint rm d acts label.
    Proof.
      intros rm acts label Ne B. destruct (tested rm d acts label inter_reach Ne) as [chars [inv [L E]]]. apply E. apply (always_applies rm _ label) with (2 := L).
      intros i x Hx. assert (Q : entry_of d [x] <> None) by (apply (inter_codepoints o today d1 d2 d Po I1 I2 H); apply B; eapply nth_error_In; exact Hx).
      destruct (entry_of d [x]) as [ch|] eqn:Ec; [|congruence]. destruct (inter_entry _ _ Ec) as [_ [C [W NW]]]. exists ch.
      assert (En : entry (lg_rep (doc_lgr d)) ch) by (unfold entry; rewrite C; exact Ec).
      split; [exact En|]. split; [exact C|]. split; [exact En|]. rewrite C, W, NW. split; [apply nth_occurs; exact Hx|exact I].
    Qed.
  End Inter.

  Section Union.
    Hypothesis H : union_is o today d1 d2 d.
    Lemma union_reach : lgr_reachable (doc_lgr d).
    Proof. apply (uf_reachable _ _ _ _ _ (union_facts_of o today d1 d2 d Po I1 I2 H)). Qed.
    Lemma union_entry : forall rm label i c, (exists ch, entry_of d c = Some ch /\ context_holds rm (ch_when ch) (ch_not_when ch) c label i) <-> either_allows rm d1 d2 label c i.
    Proof.
      intros rm label i c. pose proof (uf_entries _ _ _ _ _ (union_facts_of o today d1 d2 d Po I1 I2 H) c) as F. unfold either_allows, both_have, allows.
      destruct (entry_of d1 c) as [a|], (entry_of d2 c) as [b|].
      - destruct F as [ch [F1 [_ [_ [_ [_ [_ [W [NW _]]]]]]]]]. split; [intros _; left; split; discriminate|]. intros _. exists ch. rewrite W, NW. split; [exact F1|exact I].
      - destruct F as [ch [F1 [_ [_ [_ [_ [_ [W [NW _]]]]]]]]]. split.
        + intros [ch' [E1 E2]]. assert (ch' = ch) by congruence. subst ch'. right. left. split; [|reflexivity]. exists a. rewrite <- W, <- NW. auto.
        + intros [[_ X]|[[[a' [E1 E2]] _]|[X _]]]; [congruence| |discriminate]. injection E1 as <-. exists ch. rewrite W, NW. auto.
      - destruct F as [ch [F1 [_ [_ [_ [_ [_ [W [NW _]]]]]]]]]. split.
        + intros [ch' [E1 E2]]. assert (ch' = ch) by congruence. subst ch'. right. right. split; [reflexivity|]. exists b. rewrite <- W, <- NW. auto.
        + intros [[X _]|[[_ X]|[_ [a' [E1 E2]]]]]; [congruence|discriminate|]. injection E1 as <-. exists ch. rewrite W, NW. auto.
      - rewrite F. split; [intros [ch [X _]]; discriminate|]. intros [[X _]|[[[a' [E1 E2]] _]|[_ [a' [E1 E2]]]]]; [congruence|discriminate|discriminate].
    Qed.
    Theorem union_made : forall rm acts label, no_complaint rm d acts label -> made_of (either_allows rm d1 d2 label) 0 label.
    Proof.
      intros rm acts label N. pose proof (tested_nonempty _ _ _ _ N) as Ne. destruct (tested rm d acts label union_reach Ne) as [chars [inv [L E]]].
      apply E in N. pose proof (longest_match_cut _ _ _ _ _ _ L N) as C. apply (cut_made _ _ _ (either_allows rm d1 d2 label)) in C; [exact C| |lia].
      intros i ch [A [_ K]]. apply union_entry. exists ch. auto.
    Qed.
    Theorem union_passes : forall rm acts label, label <> [] -> (forall i x, nth_error label i = Some x -> either_allows rm d1 d2 label [x] i) -> no_complaint rm d acts label.
    Proof.
      intros rm acts label Ne B. destruct (tested rm d acts label union_reach Ne) as [chars [inv [L E]]]. apply E. apply (always_applies rm _ label) with (2 := L).
      intros i x Hx. destruct (proj2 (union_entry rm label i [x]) (B i x Hx)) as [ch [Ec K]]. pose proof (entry_at _ _ _ Ec) as C. exists ch.
      assert (En : entry (lg_rep (doc_lgr d)) ch) by (unfold entry; rewrite C; exact Ec).
      split; [exact En|]. split; [exact C|]. split; [exact En|]. rewrite C. split; [apply nth_occurs; exact Hx|exact K].
    Qed.
  End Union.
End Two.

(** What an LGR without sequences asks. *)
Lemma alone_asks : forall rm d acts label, input_ok d -> one_by_one d -> no_complaint rm d acts label ->
  forall i x, nth_error label i = Some x -> allows rm d label [x] i.
Proof.
  intros rm d acts label [T _] S1 N i x Hx. pose proof (tested_nonempty _ _ _ _ N) as Ne.
  destruct (tested rm d acts label (tidy_reachable _ T) Ne) as [chars [inv [L E]]]. apply E in N. pose proof (longest_match_cut _ _ _ _ _ _ L N) as C.
  destruct (single_cut rm (lg_rep (doc_lgr d)) label) with (i := 0%nat) (chars := chars) (j := i) (x := x) as [ch [E1 [E2 E3]]]; auto; [|lia|].
  - intros ch Hch. apply S1. unfold entry_of. unfold entry in Hch. congruence.
  - exists ch. unfold entry in E1. rewrite E2 in E1. auto.
Qed.
Theorem union_keeps_first : forall o today d1 d2 d, permutes o -> input_ok d1 -> input_ok d2 -> union_is o today d1 d2 d -> one_by_one d1 ->
  forall rm acts acts' label, no_complaint rm d1 acts label -> no_complaint rm d acts' label.
Proof.
  intros o today d1 d2 d Po I1 I2 H S1 rm acts acts' label N. apply (union_passes o today d1 d2 d Po I1 I2 H); [eapply tested_nonempty; exact N|].
  intros i x Hx. pose proof (alone_asks _ _ _ _ I1 S1 N i x Hx) as A. unfold either_allows, both_have. destruct (entry_of d2 [x]) eqn:E2; [left|right; left; auto].
  destruct A as [a [A _]]. split; congruence.
Qed.
Theorem union_keeps_second : forall o today d1 d2 d, permutes o -> input_ok d1 -> input_ok d2 -> union_is o today d1 d2 d -> one_by_one d2 ->
  forall rm acts acts' label, no_complaint rm d2 acts label -> no_complaint rm d acts' label.
Proof.
  intros o today d1 d2 d Po I1 I2 H S1 rm acts acts' label N. apply (union_passes o today d1 d2 d Po I1 I2 H); [eapply tested_nonempty; exact N|].
  intros i x Hx. pose proof (alone_asks _ _ _ _ I2 S1 N i x Hx) as A. unfold either_allows, both_have. destruct (entry_of d1 [x]) eqn:E2; [left|right; right; auto].
  destruct A as [a [A _]]. split; congruence.
Qed.
Theorem inter_keeps : forall o today d1 d2 d, permutes o -> input_ok d1 -> input_ok d2 -> intersection_is o today d1 d2 d -> one_by_one d1 -> one_by_one d2 ->
  forall rm rm' acts acts' acts'' label, no_complaint rm d1 acts label -> no_complaint rm' d2 acts' label -> no_complaint rm d acts'' label.
Proof.
  intros o today d1 d2 d Po I1 I2 H S1 S2 rm rm' acts acts' acts'' label N1 N2. apply (inter_passes o today d1 d2 d Po I1 I2 H); [eapply tested_nonempty; exact N1|].
  intros x Hx. apply In_nth_error in Hx. destruct Hx as [i Hx].
  destruct (alone_asks _ _ _ _ I1 S1 N1 i x Hx) as [a [A _]]. destruct (alone_asks _ _ _ _ I2 S2 N2 i x Hx) as [b [B _]]. split; congruence.
Qed.
(** Without context rules, a label of the intersection is one of both LGRs. *)
Lemma made_single : forall P i label, made_of P i label -> (forall c j, P c j -> exists x, c = [x]) -> forall x, In x label -> exists j, P [x] j.
Proof.
  intros P i label M S1. induction M as [|i c rest Hc Hp M IH]; [intros x []|]. intros x Hx. apply in_app_iff in Hx. destruct Hx as [Hx|Hx]; [|auto].
  destruct (S1 _ _ Hp) as [y ->]. destruct Hx as [->|[]]. eauto.
Qed.
Theorem inter_of_first : forall o today d1 d2 d, permutes o -> input_ok d1 -> input_ok d2 -> intersection_is o today d1 d2 d -> free d1 -> one_by_one d1 \/ one_by_one d2 ->
  forall rm rm' acts acts' label, no_complaint rm d acts label -> no_complaint rm' d1 acts' label.
Proof.
  intros o today d1 d2 d Po I1 I2 H F S1 rm rm' acts acts' label N. pose proof (inter_made o today d1 d2 d Po I1 I2 H _ _ _ N) as M.
  assert (B : forall x, In x label -> both_have d1 d2 [x]).
  { intros x Hx. apply made_single with (x := x) in M; [destruct M as [_ M]; exact M| |exact Hx]. intros c _ [B1 B2]. destruct S1 as [S1|S1]; auto. }
  destruct I1 as [T1 _]. destruct (tested rm' d1 acts' label (tidy_reachable _ T1) (tested_nonempty _ _ _ _ N)) as [chars [inv [L E]]]. apply E.
  apply (always_applies rm' _ label) with (2 := L). intros i x Hx. destruct (B x) as [B1 _]; [eapply nth_error_In; exact Hx|].
  destruct (entry_of d1 [x]) as [ch|] eqn:Ec; [|congruence]. destruct (F _ _ Ec) as [W NW]. pose proof (entry_at _ _ _ Ec) as C. exists ch.
  assert (En : entry (lg_rep (doc_lgr d1)) ch) by (unfold entry; rewrite C; exact Ec).
  split; [exact En|]. split; [exact C|]. split; [exact En|]. rewrite C, W, NW. split; [apply nth_occurs; exact Hx|exact I].
Qed.

(** ** Collisions in the intersection *)
Lemma Forall2_weaken : forall (A B : Type) (P Q : A -> B -> Prop), (forall x y, P x y -> Q x y) -> forall a b, Forall2 P a b -> Forall2 Q a b.
Proof. intros A B P Q H a b F. induction F; constructor; auto. Qed.
Lemma collide_iff : forall rm d a b, lgr_reachable (doc_lgr d) -> simple_lgr (lg_rep (doc_lgr d)) -> in_lgr (lg_rep (doc_lgr d)) a -> in_lgr (lg_rep (doc_lgr d)) b ->
  (collide rm d a b <-> Forall2 (interchangeable (lg_rep (doc_lgr d))) a b).
Proof.
  intros rm d a b R S1 Ha Hb. pose proof (lgr_reachable_rep _ R) as Rr.
  destruct (index_has rm _ a Rr S1 Ha) as [ia [I1 [I2 [I3 I4]]]]. destruct (index_has rm _ b Rr S1 Hb) as [ib [J1 [J2 [J3 J4]]]]. unfold collide. split.
  - intros [i [[K1 _] [K2 _]]]. destruct I1 as [I1 _]. destruct J1 as [J1 _]. assert (i = ia) by congruence. assert (i = ib) by congruence. subst i. subst ib.
    apply (inter_trans _ a ia b S1 I4). apply inter_sym; assumption.
  - intro F. exists ia. split; [exact I1|]. replace ia with ib; [exact J1|]. apply (Forall2_least_unique (lg_rep (doc_lgr d)) a); [|exact I2].
    clear - F J2 S1. revert ib J2. induction F as [|x y a b H F IH]; intros ib J2; inversion J2 as [|y' m b' j L K]; subst; constructor; auto.
    destruct L as [L1 L2]. split; [eapply interchangeable_trans; eauto|]. intros z Hz. apply L2. apply (interchangeable_trans _ S1 y x z); [apply interchangeable_sym; assumption|exact Hz].
Qed.
Section InterIndex.
  Variables (o : orders) (today : cps) (d1 d2 d : doc).
  Hypotheses (Po : permutes o) (I1 : input_ok d1) (I2 : input_ok d2) (H : intersection_is o today d1 d2 d).
  Let r1 := lg_rep (doc_lgr d1). Let r2 := lg_rep (doc_lgr d2). Let r := lg_rep (doc_lgr d).
  Hypotheses (L1 : letters r1) (L2 : letters r2).

  Lemma vkey_target : forall d0 a b, letters (lg_rep (doc_lgr d0)) -> (has_target (lg_rep (doc_lgr d0)) a b <-> has_vkey (entry_of d0 a) (b, None, None)).
  Proof.
    intros d0 a b L. unfold has_target, mapping, has_vkey, has_variant, entry_of. split.
    - intros [v [ch [A [B C]]]]. exists v. split; [exists ch; auto|]. destruct (L _ _ A) as [_ [_ [_ V]]]. destruct (V v B) as [V1 [V2 _]]. unfold vkey. congruence.
    - intros [v [[ch [A B]] K]]. exists v, ch. unfold vkey in K. injection K as K _ _. auto.
  Qed.
  Lemma inter_letters : letters r.
  Proof.
    intros c ch E. destruct (inter_entry o today d1 d2 d Po I1 I2 H c ch E) as [[B1 B2] [_ [W NW]]].
    split; [|split; [exact W|split; [exact NW|]]].
    - unfold entry_of in B1. destruct (lookup (lg_rep (doc_lgr d1)) c) eqn:E1; [|congruence]. apply (L1 _ _ E1).
    - intros v Hv. assert (K : has_vkey (entry_of d c) (vkey v)) by (exists v; split; [exists ch; auto|reflexivity]).
      apply (inter_variant_keys o today d1 d2 d Po I1 I2 H) in K. destruct K as [[w [[ch1 [E1 Hw]] K]] _].
      destruct (L1 _ _ E1) as [_ [_ [_ V]]]. destruct (V w Hw) as [V1 [V2 [y V3]]]. unfold vkey in K. injection K as K1 K2 K3. split; [congruence|]. split; [congruence|].
      exists y. congruence.
  Qed.
  Lemma inter_targets : forall a b, has_target r a b <-> has_target r1 a b /\ has_target r2 a b.
  Proof.
    intros a b. unfold r, r1, r2. rewrite !vkey_target by (first [exact inter_letters|exact L1|exact L2]). apply (inter_variant_keys o today d1 d2 d Po I1 I2 H).
  Qed.
  Lemma inter_lookup : forall c, lookup r c <> None <-> lookup r1 c <> None /\ lookup r2 c <> None.
  Proof. apply (inter_codepoints o today d1 d2 d Po I1 I2 H). Qed.
  Hypotheses (S1 : symmetric r1) (S2 : symmetric r2) (T1 : transitive r1) (T2 : transitive r2).
  Theorem inter_complete : symmetric r /\ transitive r.
  Proof.
    split.
    - intros a b Hab. apply inter_targets in Hab. destruct Hab as [A B]. destruct (S1 _ _ A), (S2 _ _ B). split; [apply inter_lookup; auto|apply inter_targets; auto].
    - intros a b Hab. apply inter_targets in Hab. destruct Hab as [A B]. destruct (T1 _ _ A) as [A1 A2], (T2 _ _ B) as [B1 B2]. split; [apply inter_lookup; auto|].
      intros c Hbc N. apply inter_targets in Hbc. destruct Hbc. apply inter_targets. auto.
  Qed.
  Theorem inter_collide : forall rm rm1 rm2 a b, (forall x, In x a \/ In x b -> both_have d1 d2 [x]) ->
    (collide rm d a b <-> collide rm1 d1 a b /\ collide rm2 d2 a b).
  Proof.
    intros rm rm1 rm2 a b B. pose proof inter_complete as [S T].
    assert (Ia : forall l, (forall x, In x l -> both_have d1 d2 [x]) -> in_lgr r1 l /\ in_lgr r2 l /\ in_lgr r l).
    { intros l Hl. split; [|split]; intros x Hx; destruct (Hl x Hx) as [X Y]; [exact X|exact Y|]. apply inter_lookup. auto. }
    destruct (Ia a) as [A1 [A2 A3]]; [auto|]. destruct (Ia b) as [B1 [B2 B3]]; [auto|].
    destruct I1 as [Q1 _]. destruct I2 as [Q2 _].
    rewrite (collide_iff rm d a b (inter_reach o today d1 d2 d Po I1 I2 H) (letters_simple _ inter_letters S T) A3 B3).
    rewrite (collide_iff rm1 d1 a b (tidy_reachable _ Q1) (letters_simple _ L1 S1 T1) A1 B1), (collide_iff rm2 d2 a b (tidy_reachable _ Q2) (letters_simple _ L2 S2 T2) A2 B2).
    fold r r1 r2. rewrite <- !variant_labels_iff. unfold variant_labels. split.
    - intro F. split; (eapply Forall2_weaken; [|exact F]); cbv beta; intros x y [K|K]; auto; right; apply inter_targets in K; tauto.
    - intros [F G]. clear - F G I1 I2 H L1 L2 Po. revert G. induction F as [|x y a b K F IH]; intro G; inversion G as [|x' y' a' b' K' G']; subst; constructor; auto.
      destruct K as [K|K]; [auto|]. destruct K' as [K'|K']; [auto|]. right. apply inter_targets. auto.
  Qed.
End InterIndex.
