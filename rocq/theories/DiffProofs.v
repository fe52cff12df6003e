(** Proofs about the comparison of LGRs. *)
From Verif Require Import Base BaseFacts CharModel RepSpec RepProofs UtilsModel RefModel ActionModel LgrModel LgrSpec LgrInv MetaModel CompareModel CompareSpec CompareProofs HarmonizeFinal DiffModel DiffSpec.
From Coq Require Import Permutation.
Open Scope string_scope.
Open Scope list_scope.

Lemma otext_eqb_iff : forall a b, otext_eqb a b = true <-> a = b.
Proof. intros [a|] [b|]; cbn [otext_eqb]; try (split; [discriminate|discriminate]); [|tauto]. rewrite cps_eqb_eq. split; congruence. Qed.
Lemma ostring_eqb_iff : forall a b, ostring_eqb a b = true <-> a = b.
Proof. intros. apply ostring_eqb_eq. Qed.
Lemma names_eqb_iff : forall a b, names_eqb a b = true <-> a = b.
Proof.
  induction a as [|x a IH]; intros [|y b]; cbn [names_eqb]; try (split; [discriminate|discriminate]); [tauto|].
  destruct (String.eqb_spec x y) as [->|H]; [rewrite IH; split; congruence|]. split; [discriminate|congruence].
Qed.
Lemma vprops_eqb_iff : forall a b, vprops_eqb a b = true <-> a = b.
Proof.
  intros [c t w n m] [c' t' w' n' m']. unfold vprops_eqb. cbn [vp_cp vp_type vp_when vp_not_when vp_comment].
  pose proof (cps_eqb_eq c c') as H1. destruct (cps_eqb c c'); [|split; [discriminate|intro E; injection E as E; apply H1 in E; discriminate]].
  pose proof (ostring_eqb_eq t t') as H2. destruct (ostring_eqb t t'); [|split; [discriminate|intro E; injection E; intros; assert (t = t') as K by assumption; apply H2 in K; discriminate]].
  pose proof (ostring_eqb_eq w w') as H3. destruct (ostring_eqb w w'); [|split; [discriminate|intro E; injection E; intros; assert (w = w') as K by assumption; apply H3 in K; discriminate]].
  pose proof (ostring_eqb_eq n n') as H4. destruct (ostring_eqb n n'); [|split; [discriminate|intro E; injection E; intros; assert (n = n') as K by assumption; apply H4 in K; discriminate]].
  rewrite ostring_eqb_eq. split; [intros ->|congruence]. f_equal; tauto.
Qed.
Lemma scope_eqb_iff : forall a b, scope_eqb a b = true <-> a = b.
Proof.
  intros [v t] [v' t']. unfold scope_eqb. cbn [sc_value sc_type]. rewrite andb_true_iff, cps_eqb_eq, otext_eqb_iff. split; [intros [-> ->]; reflexivity|].
  intro H. injection H. auto.
Qed.

Section Values.
  Variable A : Type.
  Variable eqb : A -> A -> bool.
  Hypothesis Heq : forall a b, eqb a b = true <-> a = b.

  Lemma values_report : forall ss a b, value_report ss a b (compare_values eqb ss a b).
  Proof.
    intros ss a b. unfold compare_values. destruct (eqb a b) eqn:E; cbn [negb].
    - apply Heq in E. destruct ss; cbn; auto.
    - cbn. split; [|auto]. intro K. apply Heq in K. congruence.
  Qed.
  Lemma incl_forallb : forall a b, forallb (fun x => memb eqb x b) a = true <-> forall x, In x a -> In x b.
  Proof. intros. rewrite forallb_forall. split; intros H x Hx; apply H in Hx; apply (memb_In _ _ Heq); exact Hx. Qed.
  Lemma same_set_iff : forall a b, same_set eqb a b = true <-> forall x, In x a <-> In x b.
  Proof.
    intros a b. unfold same_set. destruct (forallb (fun x => memb eqb x b) a) eqn:E.
    - rewrite incl_forallb in *. split; [intros H x; split; auto|intros H x Hx; apply H; exact Hx].
    - split; [discriminate|]. intro H. assert (K : forallb (fun x => memb eqb x b) a = true) by (apply incl_forallb; intros x; apply H). congruence.
  Qed.
  Lemma not_incl : forall a b, forallb (fun x => memb eqb x b) a = false -> exists x, In x a /\ ~ In x b.
  Proof.
    induction a as [|x a IH]; intros b H; [discriminate|]. cbn [forallb] in H. destruct (memb eqb x b) eqn:E.
    - cbn [andb] in H. destruct (IH b H) as [y [K1 K2]]. exists y. split; [right; exact K1|exact K2].
    - exists x. split; [left; reflexivity|]. intro K. apply (memb_In _ _ Heq) in K. congruence.
  Qed.
  Variable order : forall A : Type, list A -> list A.
  Hypothesis Hord : any_order order.
  Lemma sets_report : forall ss a b (P Q : A -> Prop), (forall x, In x a <-> P x) -> (forall x, In x b <-> Q x) ->
    set_report ss P Q (compare_sets order eqb ss a b).
  Proof.
    intros ss a b P Q HP HQ. unfold compare_sets. fold (same_set eqb a b). destruct (same_set eqb a b) eqn:E; cbn [negb].
    - rewrite same_set_iff in E. assert (K : forall x, P x <-> Q x) by (intro x; rewrite <- HP, <- HQ; apply E). destruct ss; cbn; [|auto].
      split; [reflexivity|]. split; [apply (perm_NoDup _ (order A) (Hord A)), (dedup_NoDup _ _ Heq)|]. split; [|exact K].
      intro x. rewrite (perm_In _ (order A) (Hord A)), (dedup_In _ _ Heq). apply HP.
    - cbn. split; [apply (perm_NoDup _ (order A) (Hord A)), (set_diff_NoDup _ Heq)|]. split; [apply (perm_NoDup _ (order A) (Hord A)), (set_diff_NoDup _ Heq)|].
      split; [intro x; rewrite (perm_In _ (order A) (Hord A)), (set_diff_In _ Heq), HP, HQ; tauto|].
      split; [intro x; rewrite (perm_In _ (order A) (Hord A)), (set_diff_In _ Heq), HP, HQ; tauto|].
      unfold same_set in E. destruct (forallb (fun x => memb eqb x b) a) eqn:E1.
      + right. apply not_incl in E. destruct E as [x [K1 K2]]. intro K. assert (In x (order A (set_diff eqb b a))) as Hx by (apply (perm_In _ (order A) (Hord A)), (set_diff_In _ Heq); auto).
        rewrite K in Hx. exact Hx.
      + left. apply not_incl in E1. destruct E1 as [x [K1 K2]]. intro K. assert (In x (order A (set_diff eqb a b))) as Hx by (apply (perm_In _ (order A) (Hord A)), (set_diff_In _ Heq); auto).
        rewrite K in Hx. exact Hx.
  Qed.
End Values.

Lemma quiet_iff : forall A (s : shown A), quiet s = true <-> s = Nothing.
Proof. intros A []; cbn; split; congruence. Qed.
Lemma quiet_set_iff : forall A (s : shown_set A), quiet_set s = true <-> s = SNothing.
Proof. intros A []; cbn; split; congruence. Qed.

Section Parts.
  Variable order : forall A : Type, list A -> list A.
  Hypothesis Hord : any_order order.

  Lemma diff_version_report : forall ss a b, version_report ss a b (diff_version ss a b).
  Proof.
    intros ss [a|] [b|]; cbn [version_report]; [|reflexivity..].
    exists (compare_values cps_eqb ss (ver_value a) (ver_value b)), (compare_values otext_eqb ss (ver_comment a) (ver_comment b)).
    split; [apply values_report, cps_eqb_eq|]. split; [apply values_report, otext_eqb_iff|].
    unfold diff_version. cbn [vd_none1 vd_none2 vd_value vd_comment].
    set (v := compare_values cps_eqb ss (ver_value a) (ver_value b)). set (c := compare_values otext_eqb ss (ver_comment a) (ver_comment b)).
    destruct (quiet v) eqn:Ev; cbn [negb].
    - destruct (quiet c) eqn:Ec; cbn [negb].
      + left. apply quiet_iff in Ev. apply quiet_iff in Ec. auto.
      + right. split; [reflexivity|]. intros [_ K]. apply quiet_iff in K. congruence.
    - right. split; [reflexivity|]. intros [K _]. apply quiet_iff in K. congruence.
  Qed.
  Lemma diff_description_report : forall ss a b, description_report ss a b (diff_description ss a b).
  Proof.
    intros ss [a|] [b|]; cbn [description_report]; [|reflexivity..].
    exists (compare_values otext_eqb ss (desc_type a) (desc_type b)), (compare_values cps_eqb ss (desc_value a) (desc_value b)).
    split; [apply values_report, otext_eqb_iff|]. split; [apply values_report, cps_eqb_eq|].
    unfold diff_description. cbn [dd_none1 dd_none2 dd_value dd_type].
    set (t := compare_values otext_eqb ss (desc_type a) (desc_type b)). set (v := compare_values cps_eqb ss (desc_value a) (desc_value b)).
    destruct (quiet t) eqn:Ev; cbn [negb].
    - destruct (quiet v) eqn:Ec; cbn [negb].
      + left. apply quiet_iff in Ev. apply quiet_iff in Ec. auto.
      + right. split; [reflexivity|]. intros [_ K]. apply quiet_iff in K. congruence.
    - right. split; [reflexivity|]. intros [K _]. apply quiet_iff in K. congruence.
  Qed.
  Lemma quiet_metadata_iff : forall d, quiet_metadata d = true <-> d = nothing_said.
  Proof.
    intros [[v|] [de|] s l a b c u]; unfold quiet_metadata, nothing_said; cbn [mf_version mf_description mf_scopes mf_languages mf_date mf_start mf_end mf_unicode is_none];
      try (split; discriminate).
    destruct s; cbn [quiet_set]; try (split; discriminate). destruct l; cbn [quiet_set]; try (split; discriminate).
    destruct a; cbn [quiet]; try (split; discriminate). destruct b; cbn [quiet]; try (split; discriminate).
    destruct c; cbn [quiet]; try (split; discriminate). destruct u; cbn [quiet]; try (split; discriminate). tauto.
  Qed.
  Lemma diff_metadata_report : forall ss a b, metadata_report ss a b (diff_metadata order ss a b).
  Proof.
    intros ss a b. unfold diff_metadata.
    match goal with |- metadata_report _ _ _ (if quiet_metadata ?d then _ else _) => exists d; pose proof (quiet_metadata_iff d) as K; destruct (quiet_metadata d) end.
    - split; [left; split; [reflexivity|apply K; reflexivity]|]. cbn [mf_version mf_description mf_scopes mf_languages mf_date mf_start mf_end mf_unicode].
      split; [apply diff_version_report|]. split; [apply diff_description_report|].
      split; [apply (sets_report _ _ scope_eqb_iff order Hord); tauto|]. split; [apply (sets_report _ _ cps_eqb_eq order Hord); tauto|].
      repeat split; apply values_report, otext_eqb_iff.
    - split; [right; split; [reflexivity|intro E; apply K in E; discriminate]|]. cbn [mf_version mf_description mf_scopes mf_languages mf_date mf_start mf_end mf_unicode].
      split; [apply diff_version_report|]. split; [apply diff_description_report|].
      split; [apply (sets_report _ _ scope_eqb_iff order Hord); tauto|]. split; [apply (sets_report _ _ cps_eqb_eq order Hord); tauto|].
      repeat split; apply values_report, otext_eqb_iff.
  Qed.

  Lemma props_In : forall ch p, In p (map props_of (get_variants ch)) <-> has_props ch p.
  Proof. intros ch p. rewrite in_map_iff. unfold has_props, props_of. split; intros [v [H1 H2]]; exists v; auto. Qed.
  Lemma diff_char_report : forall ss a b, char_report ss a b (diff_char order ss a b).
  Proof.
    intros ss a b. unfold diff_char. 
    match goal with |- char_report _ _ _ (if ?t then _ else _) => destruct t eqn:E end.
    - destruct ss; [discriminate|]. destruct (ostring_eqb (ch_comment a) (ch_comment b)) eqn:E1; [|discriminate]. apply ostring_eqb_iff in E1.
      destruct (names_eqb (ch_tags a) (ch_tags b)) eqn:E2; [|discriminate]. apply names_eqb_iff in E2. rewrite (same_set_iff _ _ vprops_eqb_iff) in E.
      split; [cbn; auto|]. split; [cbn; auto|]. cbn. split; [reflexivity|]. intro p. rewrite <- !props_In. apply E.
    - split; [apply values_report, ostring_eqb_iff|]. split; [apply values_report, names_eqb_iff|].
      apply (sets_report _ _ vprops_eqb_iff order Hord); apply props_In.
  Qed.
  Lemma quiet_alike : forall a b, quiet_char (diff_char order false a b) = true <-> alike a b.
  Proof.
    intros a b. destruct (diff_char_report false a b) as [H1 [H2 H3]]. destruct (diff_char order false a b) as [c t v].
    unfold quiet_char, alike. cbn [cd_comment cd_tags cd_variants] in *.
    destruct c as [|x y|x]; cbn [quiet value_report] in *; [|split; [discriminate|tauto]|destruct H1; discriminate].
    destruct t as [|x y|x]; cbn [quiet value_report] in *; [|split; [discriminate|tauto]|destruct H2; discriminate].
    destruct v as [|l1 l2|l]; cbn [quiet_set set_report] in *; [|split; [discriminate|]|destruct H3; discriminate].
    - split; [|auto]. tauto.
    - intros [_ [_ K]]. destruct H3 as [_ [_ [H3 [H4 H5]]]]. exfalso. destruct H5 as [H5|H5].
      + destruct l1 as [|x l1]; [contradiction|]. destruct (H3 x) as [H6 _]. specialize (H6 (or_introl eq_refl)). rewrite K in H6. tauto.
      + destruct l2 as [|x l2]; [contradiction|]. destruct (H4 x) as [H6 _]. specialize (H6 (or_introl eq_refl)). rewrite K in H6. tauto.
  Qed.

  (** ** Common code points *)
  Variables g1 g2 : lgr.
  Variable e1 e2 : cps -> option char.
  Lemma common_report : forall ss l, NoDup l ->
    (forall c, In c l -> exists a b, e1 c = Some a /\ e2 c = Some b /\ lgr_get_char g1 c = Ok a /\ lgr_get_char g2 c = Ok b) ->
    exists out n same, diff_common order ss g1 g2 l = Ok (out, n) /\ NoDup (map fst out) /\
      (forall c d, In (c, d) out -> In c l /\ exists a b, e1 c = Some a /\ e2 c = Some b /\ (ss = true \/ ~ alike a b) /\ char_report ss a b d) /\
      (forall c a b, In c l -> e1 c = Some a -> e2 c = Some b -> ss = true \/ ~ alike a b -> exists d, In (c, d) out) /\
      (ss = false -> n = length same) /\ NoDup same /\ (forall c, In c same <-> In c l /\ exists a b, e1 c = Some a /\ e2 c = Some b /\ alike a b).
  Proof.
    intros ss l Hn. induction Hn as [|c l Hc Hn IH]; intros Hl.
    - exists [], 0%nat, []. split; [reflexivity|]. split; [constructor|]. split; [intros ? ? []|]. split; [intros ? ? ? []|]. split; [reflexivity|]. split; [constructor|].
      intro c. cbn. tauto.
    - destruct IH as [out [n [same [I1 [I2 [I3 [I4 [I5 [I6 I7]]]]]]]]]; [intros d Hd; apply Hl; right; exact Hd|].
      destruct (Hl c (or_introl eq_refl)) as [a [b [Ha [Hb [Ga Gb]]]]]. cbn [diff_common]. rewrite Ga, Gb. cbn [bind]. rewrite I1. cbn [bind fst snd].
      assert (Dal : alike a b \/ ~ alike a b).
      { destruct (quiet_char (diff_char order false a b)) eqn:E; [left; apply quiet_alike; exact E|right; intro K; apply quiet_alike in K; congruence]. }
      assert (Hsame : forall q : bool, (q = true <-> alike a b) -> exists same', NoDup same' /\ length same' = (if q then S (length same) else length same) /\
         (forall x, In x same' <-> In x (c :: l) /\ exists a b, e1 x = Some a /\ e2 x = Some b /\ alike a b)).
      { intros q Hq. destruct q.
        - exists (c :: same). split; [constructor; [intro K; apply I7 in K; tauto|exact I6]|]. split; [reflexivity|]. intro x. cbn [In]. rewrite I7. split.
          + intros [<-|[K1 K2]]; [split; [auto|exists a, b; split; [exact Ha|]; split; [exact Hb|]; apply Hq; reflexivity]|auto].
          + intros [[<-|K] K2]; auto.
        - exists same. split; [exact I6|]. split; [reflexivity|]. intro x. cbn [In]. rewrite I7. split; [tauto|]. intros [[<-|K] K2]; [|auto].
          destruct K2 as [a' [b' [K3 [K4 K5]]]]. assert (a' = a) by congruence. assert (b' = b) by congruence. subst. apply Hq in K5. discriminate. }
      destruct ss.
      + exists ((c, diff_char order true a b) :: out), n.
        destruct (Hsame (quiet_char (diff_char order false a b)) (quiet_alike a b)) as [same' [S1 [S2 S3]]]. exists same'.
        split; [reflexivity|]. cbn [map fst]. split; [constructor; [|exact I2]|].
        { intro K. apply in_map_iff in K. destruct K as [[x d] [K1 K2]]. cbn in K1. subst x. apply I3 in K2. tauto. }
        split; [|split; [|split; [discriminate|split; [exact S1|exact S3]]]].
        * intros x d [K|K]; [|apply I3 in K; destruct K; split; [right|]; assumption]. injection K as <- <-. split; [left; reflexivity|].
          exists a, b. split; [exact Ha|]. split; [exact Hb|]. split; [auto|apply diff_char_report].
        * intros x a' b' [<-|K] K1 K2 K3; [eexists; left; reflexivity|]. destruct (I4 x a' b' K K1 K2 K3) as [d Hd]. exists d. right. exact Hd.
      + destruct (quiet_char (diff_char order false a b)) eqn:E.
        * destruct (Hsame true) as [same' [S1 [S2 S3]]]; [split; [intros _; apply quiet_alike; exact E|reflexivity]|]. cbn in S2.
          exists out, (S n), same'. split; [reflexivity|]. split; [exact I2|].
          split; [intros x d K; apply I3 in K; destruct K; split; [right|]; assumption|].
          split; [|split; [intros _; rewrite S2, I5; reflexivity|split; [exact S1|exact S3]]].
          intros x a' b' [<-|K] K1 K2 K3; [|eauto]. exfalso. apply quiet_alike in E. assert (a' = a) by congruence. assert (b' = b) by congruence. subst. destruct K3; [discriminate|contradiction].
        * destruct (Hsame false) as [same' [S1 [S2 S3]]]; [split; [discriminate|intro K; apply quiet_alike in K; congruence]|]. cbn in S2.
          assert (Hna : ~ alike a b) by (intro K; apply quiet_alike in K; congruence).
          exists ((c, diff_char order false a b) :: out), n, same'. split; [reflexivity|]. cbn [map fst]. split; [constructor; [|exact I2]|].
          { intro K. apply in_map_iff in K. destruct K as [[x d] [K1 K2]]. cbn in K1. subst x. apply I3 in K2. tauto. }
          split; [|split; [|split; [intros _; rewrite S2; auto|split; [exact S1|exact S3]]]].
          { intros x d [K|K]; [|apply I3 in K; destruct K; split; [right|]; assumption]. injection K as <- <-. split; [left; reflexivity|].
            exists a, b. split; [exact Ha|]. split; [exact Hb|]. split; [auto|apply diff_char_report]. }
          { intros x a' b' [<-|K] K1 K2 K3; [eexists; left; reflexivity|]. destruct (I4 x a' b' K K1 K2 K3) as [d Hd]. exists d. right. exact Hd. }
  Qed.
End Parts.

(** ** The whole comparison *)
(** The same document with its ranges spelled out. *)
Lemma same_doc_refl : forall d, same_doc d d.
Proof. intro d. repeat split; auto; assert (a = a') by congruence; subst; reflexivity. Qed.
Lemma twin_alike : forall a a' b b', twin a a' -> twin b b' -> (alike a b <-> alike a' b').
Proof. intros a a' b b' [A1 [A2 [A3 _]]] [B1 [B2 [B3 _]]]. unfold alike, has_props. rewrite A1, A2, A3, B1, B2, B3. tauto. Qed.
Lemma twin_report : forall ss a a' b b' d, twin a a' -> twin b b' -> (char_report ss a' b' d <-> char_report ss a b d).
Proof. intros ss a a' b b' d [A1 [A2 [A3 _]]] [B1 [B2 [B3 _]]]. unfold char_report, has_props. rewrite A1, A2, A3, B1, B2, B3. tauto. Qed.
Lemma set_report_ext : forall A ss (P Q P' Q' : A -> Prop) s, (forall x, P x <-> P' x) -> (forall x, Q x <-> Q' x) -> set_report ss P Q s -> set_report ss P' Q' s.
Proof.
  intros A ss P Q P' Q' s HP HQ. destruct s as [|l1 l2|l]; cbn.
  - intros [H1 H2]. split; [exact H1|]. intro x. rewrite <- HP, <- HQ. apply H2.
  - intros [H1 [H2 [H3 [H4 H5]]]]. split; [exact H1|]. split; [exact H2|].
    split; [intro x; rewrite (H3 x), (HP x), (HQ x); tauto|]. split; [intro x; rewrite (H4 x), (HP x), (HQ x); tauto|exact H5].
  - intros [H1 [H2 [H3 H4]]]. split; [exact H1|]. split; [exact H2|]. split; intro x; [rewrite <- (HP x); apply H3|rewrite <- (HP x), <- (HQ x); apply H4].
Qed.

Lemma reports_same : forall ss d1 d1' d2 d2' r, same_doc d1 d1' -> same_doc d2 d2' -> reports ss d1' d2' r -> reports ss d1 d2 r.
Proof.
  intros ss d1 d1' d2 d2' r [N1 [M1 [A1 [R1 [C1 [F1 [P1 T1]]]]]]] [N2 [M2 [A2 [R2 [C2 [F2 [P2 T2]]]]]]] [H1 H2 H3 H4 H5 H6 H7 H8 H9 H10].
  assert (Hin : forall c a b, in_both d1 d2 c a b -> exists a' b', in_both d1' d2' c a' b' /\ twin a a' /\ twin b b').
  { intros c a b [Ea Eb]. destruct (entry_of d1' c) as [a'|] eqn:Ea'; [|exfalso; apply (proj2 (P1 c)); [rewrite Ea; discriminate|exact Ea']].
    destruct (entry_of d2' c) as [b'|] eqn:Eb'; [|exfalso; apply (proj2 (P2 c)); [rewrite Eb; discriminate|exact Eb']].
    exists a', b'. split; [split; assumption|]. split; eauto. }
  assert (Hback : forall c a' b', in_both d1' d2' c a' b' -> exists a b, in_both d1 d2 c a b /\ twin a a' /\ twin b b').
  { intros c a' b' [Ea' Eb']. destruct (entry_of d1 c) as [a|] eqn:Ea; [|exfalso; apply (proj1 (P1 c)); [rewrite Ea'; discriminate|exact Ea]].
    destruct (entry_of d2 c) as [b|] eqn:Eb; [|exfalso; apply (proj1 (P2 c)); [rewrite Eb'; discriminate|exact Eb]].
    exists a, b. split; [split; assumption|]. split; eauto. }
  constructor.
  - rewrite <- M1, <- M2. exact H1.
  - revert H2. unfold ref_text. rewrite F1, F2. auto.
  - eapply set_report_ext; [| |exact H3]; [exact P1|exact P2].
  - exact H4.
  - intros c d K. apply H5 in K. destruct K as [a' [b' [K1 [K2 K3]]]]. destruct (Hback c a' b' K1) as [a [b [L1 [L2 L3]]]].
    exists a, b. split; [exact L1|]. split; [rewrite (twin_alike _ _ _ _ L2 L3); exact K2|apply (twin_report _ _ _ _ _ _ L2 L3); exact K3].
  - intros c a b K1 K2. destruct (Hin c a b K1) as [a' [b' [L1 [L2 L3]]]]. apply (H6 c a' b' L1). rewrite <- (twin_alike _ _ _ _ L2 L3). exact K2.
  - destruct H7 as [l [L1 [L2 L3]]]. exists l. split; [exact L1|]. split; [|exact L3]. intro c. rewrite L2. split.
    + intros [a' [b' [K1 K2]]]. destruct (Hback c a' b' K1) as [a [b [Q1 [Q2 Q3]]]]. exists a, b. split; [exact Q1|]. apply (twin_alike _ _ _ _ Q2 Q3). exact K2.
    + intros [a [b [K1 K2]]]. destruct (Hin c a b K1) as [a' [b' [Q1 [Q2 Q3]]]]. exists a', b'. split; [exact Q1|]. apply (twin_alike _ _ _ _ Q2 Q3). exact K2.
  - rewrite <- A1, <- A2. exact H8.
  - rewrite <- R1, <- R2. exact H9.
  - rewrite <- C1, <- C2. exact H10.
Qed.

Lemma spelled_same : forall d g', spelled_out (doc_lgr d) g' -> same_doc d (set_doc d g').
Proof.
  intros d g' [_ [_ [Hl [_ [Hr _]]]]]. repeat (split; [first [reflexivity|exact Hr]|]). split.
  - intro c. unfold entry_of, set_doc. cbn [doc_lgr]. rewrite !lookup_lk, Hl. destruct (lk _ c); cbn; split; congruence.
  - intros c a a'. unfold entry_of, set_doc. cbn [doc_lgr]. rewrite !lookup_lk, Hl. intros E E'. rewrite E in E'. cbn in E'. injection E' as <-. repeat split; reflexivity.
Qed.

Section Whole.
  Variable order : forall A : Type, list A -> list A.
  Hypothesis Hord : any_order order.

  Lemma body_report : forall ss d1 d2 g1 g2, spelled_out (doc_lgr d1) g1 -> spelled_out (doc_lgr d2) g2 ->
    exists r, diff_body order ss (set_doc d1 g1) (set_doc d2 g2) = Ok r /\ reports ss (set_doc d1 g1) (set_doc d2 g2) r.
  Proof.
    intros ss d1 d2 g1 g2 S1 S2. pose proof (spelled_same _ _ S1) as Q1. pose proof (spelled_same _ _ S2) as Q2.
    destruct S1 as [_ [_ [L1 [_ [_ [_ [N1 [I1 G1]]]]]]]]. destruct S2 as [_ [_ [L2 [_ [_ [_ [N2 [I2 G2]]]]]]]].
    unfold diff_body. cbn [set_doc doc_lgr doc_meta].
    set (d1' := set_doc d1 g1) in *. set (d2' := set_doc d2 g2) in *.
    change (map ch_cp (rep_iter (lg_rep g1))) with (cps_of g1). change (map ch_cp (rep_iter (lg_rep g2))) with (cps_of g2).
    assert (E1 : forall c, In c (cps_of g1) <-> entry_of d1' c <> None).
    { intro c. rewrite I1. unfold entry_of, d1'. cbn [set_doc doc_lgr]. rewrite lookup_lk, L1. destruct (lk _ c); cbn; split; congruence. }
    assert (E2 : forall c, In c (cps_of g2) <-> entry_of d2' c <> None).
    { intro c. rewrite I2. unfold entry_of, d2'. cbn [set_doc doc_lgr]. rewrite lookup_lk, L2. destruct (lk _ c); cbn; split; congruence. }
    destruct (common_report order Hord g1 g2 (entry_of d1') (entry_of d2') ss (order _ (set_inter cps_eqb (cps_of g1) (cps_of g2)))) as [out [n [same [K1 [K2 [K3 [K4 [K5 [K6 K7]]]]]]]]].
    - apply (perm_NoDup _ (order cps) (Hord cps)), (set_inter_NoDup _ cps_eqb_eq).
    - intros c Hc. apply (perm_In _ (order cps) (Hord cps)), (set_inter_In _ cps_eqb_eq) in Hc. destruct Hc as [Ha Hb].
      apply I1 in Ha. apply I2 in Hb. destruct (lk (lg_rep (doc_lgr d1)) c) as [a|] eqn:Ea; [|congruence]. destruct (lk (lg_rep (doc_lgr d2)) c) as [b|] eqn:Eb; [|congruence].
      exists (single a), (single b). unfold entry_of, d1', d2'. cbn [set_doc doc_lgr]. rewrite !lookup_lk, L1, L2, Ea, Eb. split; [reflexivity|]. split; [reflexivity|]. split; [apply G1; exact Ea|apply G2; exact Eb].
    - assert (Hin : forall c, In c (order _ (set_inter cps_eqb (cps_of g1) (cps_of g2))) <-> exists a b, in_both d1' d2' c a b).
      { intro c. rewrite (perm_In _ (order cps) (Hord cps)), (set_inter_In _ cps_eqb_eq), E1, E2. unfold in_both. split.
        - intros [Ha Hb]. destruct (entry_of d1' c) as [a|]; [|congruence]. destruct (entry_of d2' c) as [b|]; [|congruence]. exists a, b. auto.
        - intros [a [b [Ha Hb]]]. rewrite Ha, Hb. split; discriminate. }
      rewrite K1. cbn [bind fst snd]. eexists. split; [reflexivity|]. constructor; cbn [ld_metadata ld_references ld_repertoire ld_common ld_identical ld_actions ld_rules ld_classes].
      + apply diff_metadata_report, Hord.
      + apply (sets_report _ _ string_eqb_iff order Hord); intro t; unfold ref_values, ref_text; rewrite in_map_iff; split.
        * intros [[id r] [H1 H2]]. exists id, r. auto.
        * intros [id [r [H1 H2]]]. exists (id, r). auto.
        * intros [[id r] [H1 H2]]. exists id, r. auto.
        * intros [id [r [H1 H2]]]. exists (id, r). auto.
      + apply (sets_report _ _ cps_eqb_eq order Hord); assumption.
      + exact K2.
      + intros c d Hc. apply K3 in Hc. destruct Hc as [_ [a [b [H1 [H2 [H3 H4]]]]]]. exists a, b. split; [split; assumption|]. auto.
      + intros c a b [H1 H2] H3. apply (K4 c a b); auto. apply Hin. exists a, b. split; assumption.
      + exists same. split; [exact K6|]. split.
        * intro c. rewrite K7, Hin. unfold in_both. split.
          -- intros [_ [a [b [H1 [H2 H3]]]]]. exists a, b. auto.
          -- intros [a [b [[H1 H2] H3]]]. split; exists a, b; auto.
        * destruct ss; [reflexivity|]. rewrite (K5 eq_refl). destruct (length same); reflexivity.
      + apply (sets_report _ _ string_eqb_iff order Hord); intro t; rewrite in_map_iff; split; intros [a [H1 H2]]; exists a; auto.
      + apply (sets_report _ _ string_eqb_iff order Hord); tauto.
      + apply (sets_report _ _ string_eqb_iff order Hord); tauto.
  Qed.

  Theorem diff_report : forall ss d1 d2, tidy (doc_lgr d1) -> tidy (doc_lgr d2) ->
    exists d1' d2' r, diff_lgrs order ss d1 d2 = (d1', d2', Ok r) /\ reports ss d1 d2 r /\
      same_doc d1 d1' /\ same_doc d2 d2' /\ tidy (doc_lgr d1') /\ tidy (doc_lgr d2').
  Proof.
    intros ss d1 d2 T1 T2. destruct (expanded_ok _ T1) as [g1 [X1 S1]]. destruct (expanded_ok _ T2) as [g2 [X2 S2]].
    destruct (body_report ss d1 d2 g1 g2 S1 S2) as [r [H1 H2]]. exists (set_doc d1 g1), (set_doc d2 g2), r.
    unfold diff_lgrs. rewrite X1, X2. rewrite H1. split; [reflexivity|].
    pose proof (spelled_same _ _ S1) as Q1. pose proof (spelled_same _ _ S2) as Q2.
    split; [apply (reports_same _ _ _ _ _ _ Q1 Q2 H2)|]. split; [exact Q1|]. split; [exact Q2|].
    split; [apply (tidy_expand _ _ _ T1 X1)|apply (tidy_expand _ _ _ T2 X2)].
  Qed.
End Whole.
