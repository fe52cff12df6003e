From Verif Require Import Base BaseFacts Rfc7940Model Rfc7940Spec.
Open Scope string_scope.

Lemma add_get : forall d label s t,
  dget String.eqb t (add_test_result d label s) =
  if String.eqb t label
  then Some (match dget String.eqb t d with Some b => b && s | None => s end)%bool
  else dget String.eqb t d.
Proof.
  intros d label s t. unfold add_test_result.
  destruct (String.eqb t label) eqn:E.
  - apply string_eqb_iff in E. subst t. unfold dmem.
    destruct s; simpl.
    + destruct (dget String.eqb label d) as [b|] eqn:Eg; simpl.
      * rewrite Eg, andb_true_r. reflexivity.
      * rewrite (dget_dset _ string_eqb_iff), String.eqb_refl. reflexivity.
    + rewrite (dget_dset _ string_eqb_iff), String.eqb_refl.
      destruct (dget String.eqb label d) as [b|]; auto. rewrite andb_false_r. reflexivity.
  - destruct (negb s || negb (dmem String.eqb label d))%bool; auto.
    rewrite (dget_dset _ string_eqb_iff), E. reflexivity.
Qed.

Lemma apply_get : forall l d t,
  dget String.eqb t (apply_reports d l) =
  match dget String.eqb t d, filter (fun p : report => String.eqb t (fst p)) l with
  | None, [] => None
  | None, ps => Some (forallb snd ps)
  | Some b, ps => Some (b && forallb snd ps)%bool
  end.
Proof.
  induction l as [|[t' s] l IH]; intros d t.
  - simpl. destruct (dget String.eqb t d) as [b|]; auto. rewrite andb_true_r. reflexivity.
  - cbn [apply_reports fold_left fst snd]. change (fold_left _ l ?x) with (apply_reports x l).
    rewrite IH, add_get. cbn [filter fst]. destruct (String.eqb t t') eqn:E.
    + destruct (dget String.eqb t d) as [b|]; cbn [forallb snd].
      * rewrite <- andb_assoc. destruct (filter _ l); reflexivity.
      * destruct (filter _ l); reflexivity.
    + reflexivity.
Qed.

Lemma apply_get_empty : forall l t,
  (dget String.eqb t (apply_reports [] l) = None <-> ~ executed l t) /\
  (dget String.eqb t (apply_reports [] l) = Some false <-> failed l t) /\
  (dget String.eqb t (apply_reports [] l) = Some true <-> executed l t /\ ~ failed l t).
Proof.
  intros l t. rewrite apply_get. cbn [dget].
  assert (Hf : forall b, In (t, b) l <-> In (t, b) (filter (fun p : report => String.eqb t (fst p)) l)).
  { intro b. rewrite filter_In. cbn [fst]. rewrite String.eqb_refl. tauto. }
  assert (Hall : forall p, In p (filter (fun p : report => String.eqb t (fst p)) l) -> fst p = t).
  { intros p Hp. apply filter_In in Hp. destruct Hp as [_ Hp]. apply string_eqb_iff in Hp. auto. }
  unfold executed, failed.
  destruct (filter (fun p : report => String.eqb t (fst p)) l) as [|[t0 b0] ps].
  - assert (He : forall b, ~ In (t, b) l) by (intros b Hb; apply Hf in Hb; exact Hb).
    split; [|split].
    + split; auto. intros _ [b Hb]. exact (He b Hb).
    + split; [discriminate|]. intro H. exfalso. exact (He _ H).
    + split; [discriminate|]. intros [[b Hb] _]. exfalso. exact (He b Hb).
  - assert (Ht0 : t0 = t) by (apply (Hall (t0, b0)); left; reflexivity). subst t0.
    assert (Hx : executed l t) by (exists b0; apply Hf; left; reflexivity). unfold executed in Hx.
    assert (Hfail : forallb snd ((t, b0) :: ps) = false <-> In (t, false) l).
    { rewrite Hf. split.
      - intro H. apply not_true_iff_false in H. rewrite forallb_forall in H.
        assert (Hd : In (t, false) ((t, b0) :: ps) \/ ~ In (t, false) ((t, b0) :: ps)).
        { assert (Hdec : forall a b : report, {a = b} + {a <> b}) by (decide equality; [apply Bool.bool_dec|apply string_dec]).
          destruct (in_dec Hdec (t, false) ((t, b0) :: ps)); auto. }
        destruct Hd as [Hd|Hd]; auto. exfalso. apply H. intros [x b] Hxb.
        destruct b; auto. exfalso. apply Hd. pose proof (Hall _ Hxb) as He. simpl in He. subst x. exact Hxb.
      - intro H. apply not_true_iff_false. rewrite forallb_forall. intro Hc. specialize (Hc _ H). discriminate. }
    unfold report in *.
    destruct (forallb snd ((t, b0) :: ps)) eqn:E.
    + assert (Hnf : ~ In (t, false) l) by (rewrite <- Hfail; discriminate).
      split; [|split]; split; intro H; try discriminate; auto; exfalso; tauto.
    + assert (Hff : In (t, false) l) by (apply Hfail; reflexivity).
      split; [|split]; split; intro H; try discriminate; auto; exfalso; tauto.
Qed.

(** A failure is never forgotten. *)
Theorem failure_sticky : forall d l t,
  dget String.eqb t d = Some false -> dget String.eqb t (apply_reports d l) = Some false.
Proof. intros d l t H. rewrite apply_get, H. reflexivity. Qed.

Lemma add_keys_NoDup : forall d t s, NoDup (dkeys d) -> NoDup (dkeys (add_test_result d t s)).
Proof.
  intros d t s H. unfold add_test_result. destruct (_ || _)%bool; auto. apply (dset_NoDup _ string_eqb_iff). exact H.
Qed.

Lemma apply_keys_NoDup : forall l d, NoDup (dkeys d) -> NoDup (dkeys (apply_reports d l)).
Proof.
  induction l as [|[t s] l IH]; simpl; intros d H; auto. apply IH. apply add_keys_NoDup. exact H.
Qed.

Lemma no_policy : forall desc l v,
  get_final_result desc (apply_reports [] l) None v =
  if existsb (fun p : report => negb (snd p)) l then "FAIL" else "PASS".
Proof.
  intros desc l v. unfold get_final_result.
  assert (E : existsb negb (dvals (apply_reports [] l)) = existsb (fun p : report => negb (snd p)) l).
  { apply eq_true_iff_eq. rewrite !existsb_exists. split.
    - intros [b [Hb1 Hb2]]. apply in_map_iff in Hb1. destruct Hb1 as [[t b'] [Hb3 Hb4]]. simpl in Hb3. subst b'.
      destruct b; [discriminate|].
      assert (Hg : dget String.eqb t (apply_reports [] l) = Some false).
      { apply (In_dget _ string_eqb_iff); auto. apply apply_keys_NoDup. constructor. }
      apply apply_get_empty in Hg. exists (t, false). auto.
    - intros [[t b] [Hb1 Hb2]]. destruct b; [discriminate|].
      assert (Hg : dget String.eqb t (apply_reports [] l) = Some false) by (apply apply_get_empty; exact Hb1).
      apply (dget_In _ string_eqb_iff) in Hg. exists false. split; auto.
      apply in_map_iff. exists (t, false). auto. }
  rewrite E. reflexivity.
Qed.

(** The policy loop. *)
Definition pol_error (d : results) (pol : dict string string) : Prop :=
  exists t p, In (t, p) pol /\ (dget String.eqb t d = None \/ (dget String.eqb t d = Some false /\ enforcing p)).
Definition pol_warn (d : results) (pol : dict string string) : Prop :=
  exists t, In (t, "WARNING") pol /\ dget String.eqb t d = Some false.

Lemma policy_loop_flags : forall desc v d pol info w e,
  let '(_, w', e') := policy_loop desc v d pol info w e in
  (w' = true <-> w = true \/ pol_warn d pol) /\ (e' = true <-> e = true \/ pol_error d pol).
Proof.
  intros desc v d pol. induction pol as [|[t p] pol IH]; intros info w e; cbn [policy_loop].
  - split; split; auto; intros [H|H]; auto.
    + destruct H as [t [[] _]].
    + destruct H as [t [p [[] _]]].
  - assert (Hw : pol_warn d ((t, p) :: pol) <-> (p = "WARNING" /\ dget String.eqb t d = Some false) \/ pol_warn d pol).
    { split.
      - intros [t' [[H|H] H']]; [left; injection H as H1 H2; subst; auto|right; exists t'; auto].
      - intros [[H1 H2]|[t' [H1 H2]]]; [exists t; subst; simpl; auto|exists t'; simpl; auto]. }
    assert (He : pol_error d ((t, p) :: pol) <->
        (dget String.eqb t d = None \/ (dget String.eqb t d = Some false /\ enforcing p)) \/ pol_error d pol).
    { split.
      - intros [t' [p' [[H|H] H']]]; [left; injection H as H1 H2; subst; auto|right; exists t', p'; auto].
      - intros [H|[t' [p' [H1 H2]]]]; [exists t, p; simpl; auto|exists t', p'; simpl; auto]. }
    destruct (dget String.eqb t d) as [[|]|] eqn:Eg.
    + match goal with |- context [policy_loop desc v d pol ?i w e] => specialize (IH i w e) end.
      destruct (policy_loop _ _ _ _ _ _ _) as [[i' w'] e']. rewrite Hw, He. destruct IH as [H1 H2].
      rewrite H1, H2. split; split; intros H; intuition discriminate.
    + destruct (String.eqb p "IGNORE") eqn:E1; [|destruct (String.eqb p "WARNING") eqn:E2].
      * match goal with |- context [policy_loop desc v d pol ?i w e] => specialize (IH i w e) end.
        apply string_eqb_iff in E1. subst p.
        destruct (policy_loop _ _ _ _ _ _ _) as [[i' w'] e']. rewrite Hw, He. destruct IH as [H1 H2].
        rewrite H1, H2. unfold enforcing. split; split; intros H; intuition (try discriminate; try congruence).
      * match goal with |- context [policy_loop desc v d pol ?i true e] => specialize (IH i true e) end.
        apply string_eqb_iff in E2. subst p.
        destruct (policy_loop _ _ _ _ _ _ _) as [[i' w'] e']. rewrite Hw, He. destruct IH as [H1 H2].
        rewrite H1, H2. unfold enforcing. split; split; intros H; intuition (try discriminate; try congruence).
      * match goal with |- context [policy_loop desc v d pol ?i w true] => specialize (IH i w true) end.
        assert (Hp : enforcing p).
        { split; intro Hc; subst p; rewrite String.eqb_refl in *; discriminate. }
        destruct (policy_loop _ _ _ _ _ _ _) as [[i' w'] e']. rewrite Hw, He. destruct IH as [H1 H2].
        rewrite H1, H2. unfold enforcing in *. destruct Hp. split; split; intros H'; intuition (try discriminate; try congruence).
    + match goal with |- context [policy_loop desc v d pol ?i w true] => specialize (IH i w true) end.
      destruct (policy_loop _ _ _ _ _ _ _) as [[i' w'] e']. rewrite Hw, He. destruct IH as [H1 H2].
      rewrite H1, H2. split; split; intros H; intuition (try discriminate; try congruence).
Qed.

Lemma policy_loop_quiet : forall desc d pol info w e,
  fst (fst (policy_loop desc false d pol info w e)) = info.
Proof.
  intros desc d pol. induction pol as [|[t p] pol IH]; intros info w e; cbn [policy_loop]; auto.
  destruct (dget String.eqb t d) as [[|]|]; auto.
  destruct (String.eqb p "IGNORE"); auto. destruct (String.eqb p "WARNING"); auto.
Qed.

(** What the reports say about a policy. *)
Theorem verdict_spec : forall desc l pol,
  let v := get_final_result desc (apply_reports [] l) (Some pol) false in
  (v = "FAIL" <-> spec_error l pol) /\
  (v = "WARN" <-> ~ spec_error l pol /\ spec_warn l pol) /\
  (v = "PASS" <-> ~ spec_error l pol /\ ~ spec_warn l pol).
Proof.
  intros desc l pol v. unfold get_final_result in v.
  pose proof (policy_loop_flags desc false (apply_reports [] l) pol "" false false) as Hfl.
  pose proof (policy_loop_quiet desc (apply_reports [] l) pol "" false false) as Hq.
  destruct (policy_loop desc false (apply_reports [] l) pol "" false false) as [[info w] e].
  simpl in Hq. subst info.
  assert (He : pol_error (apply_reports [] l) pol <-> spec_error l pol).
  { unfold pol_error, spec_error. split; intros [t [p [H1 H2]]]; exists t, p; (split; [exact H1|]);
      destruct (apply_get_empty l t) as [Ha [Hb _]]; tauto. }
  assert (Hw : pol_warn (apply_reports [] l) pol <-> spec_warn l pol).
  { unfold pol_warn, spec_warn. split; intros [t [H1 H2]]; exists t; (split; [exact H1|]);
      destruct (apply_get_empty l t) as [Ha [Hb _]]; tauto. }
  rewrite He, Hw in Hfl. destruct Hfl as [H1 H2].
  assert (H1' : w = true <-> spec_warn l pol) by (rewrite H1; intuition discriminate).
  assert (H2' : e = true <-> spec_error l pol) by (rewrite H2; intuition discriminate).
  assert (HE : if e then spec_error l pol else ~ spec_error l pol).
  { destruct e; [apply H2'; reflexivity|rewrite <- H2'; discriminate]. }
  assert (HW : if w then spec_warn l pol else ~ spec_warn l pol).
  { destruct w; [apply H1'; reflexivity|rewrite <- H1'; discriminate]. }
  clear H1 H2 H1' H2' He Hw.
  destruct e, w; cbv [String.append] in v; subst v;
    split; [|split| |split| |split| |split]; split; intro H; try discriminate H; try reflexivity; tauto.
Qed.

Theorem verdict_order_independent : forall desc l1 l2 pol v,
  same_reports l1 l2 ->
  get_final_result desc (apply_reports [] l1) pol v = get_final_result desc (apply_reports [] l2) pol v.
Proof.
  intros desc l1 l2 pol v H.
  assert (Hg : forall t, dget String.eqb t (apply_reports [] l1) = dget String.eqb t (apply_reports [] l2)).
  { intro t. destruct (apply_get_empty l1 t) as [A1 [B1 C1]]. destruct (apply_get_empty l2 t) as [A2 [B2 C2]].
    assert (Hf : failed l1 t <-> failed l2 t) by apply H.
    assert (He : executed l1 t <-> executed l2 t).
    { unfold executed. split; intros [b Hb]; exists b; apply H; exact Hb. }
    destruct (dget String.eqb t (apply_reports [] l1)) as [[|]|]; symmetry.
    - apply C2. rewrite <- He, <- Hf. apply C1. reflexivity.
    - apply B2. rewrite <- Hf. apply B1. reflexivity.
    - apply A2. rewrite <- He. apply A1. reflexivity. }
  destruct pol as [pol|].
  - unfold get_final_result.
    assert (E : forall i w e, policy_loop desc v (apply_reports [] l1) pol i w e = policy_loop desc v (apply_reports [] l2) pol i w e).
    { induction pol as [|[t p] pol IH]; intros i w e; cbn [policy_loop]; auto. rewrite Hg.
      destruct (dget String.eqb t (apply_reports [] l2)) as [[|]|]; auto.
      destruct (String.eqb p "IGNORE"); auto. destruct (String.eqb p "WARNING"); auto. }
    rewrite E. reflexivity.
  - rewrite !no_policy.
    assert (E : existsb (fun p : report => negb (snd p)) l1 = existsb (fun p : report => negb (snd p)) l2).
    { apply eq_true_iff_eq. rewrite !existsb_exists. split; intros [p [H1 H2]]; exists p; split; auto; apply H; exact H1. }
    rewrite E. reflexivity.
Qed.

(** The verbose text always ends with the short verdict. *)
Theorem verbose_suffix : forall desc d pol,
  exists pre, get_final_result desc d (Some pol) true = pre ++ get_final_result desc d (Some pol) false.
Proof.
  intros desc d pol. unfold get_final_result.
  pose proof (policy_loop_flags desc true d pol "" false false) as H1.
  pose proof (policy_loop_flags desc false d pol "" false false) as H2.
  pose proof (policy_loop_quiet desc d pol "" false false) as Hq.
  destruct (policy_loop desc true d pol "" false false) as [[i1 w1] e1].
  destruct (policy_loop desc false d pol "" false false) as [[i2 w2] e2]. simpl in Hq. subst i2.
  assert (Ew : w1 = w2) by (apply eq_true_iff_eq; destruct H1 as [Ha _], H2 as [Hb _]; rewrite Ha, Hb; tauto).
  assert (Ee : e1 = e2) by (apply eq_true_iff_eq; destruct H1 as [_ Ha], H2 as [_ Hb]; rewrite Ha, Hb; tauto).
  subst. exists (i1 ++ "Validation result: "). destruct e2, w2; reflexivity.
Qed.
