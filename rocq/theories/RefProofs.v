From Verif Require Import Base BaseFacts UtilsModel UtilsProofs RefModel RefSpec.
From Coq Require Import Ascii.

Lemma txt_untxt : forall l, Forall (fun c => c < 256) l -> txt (untxt l) = l.
Proof.
  induction l as [|c l IH]; intro H; simpl; auto. inversion H as [|? ? H1 H2]; subst.
  rewrite N_ascii_embedding by exact H1. rewrite IH by exact H2. reflexivity.
Qed.

Lemma py_str_small : forall z, Forall (fun c => c < 256) (py_str_Z z).
Proof.
  assert (Hd : forall n, Forall (fun c => c < 256) (digits 10 n)).
  { intro n. assert (Hb : 2 <= 10 <= 16) by lia. pose proof (digits_hex 10 n Hb) as H.
    eapply Forall_impl; [|exact H]. intros a Ha. unfold hexchar in Ha. lia. }
  intros [|p|p]; unfold py_str_Z; auto. constructor; auto. lia.
Qed.

Lemma str_Z_inj : forall a b, str_Z a = str_Z b -> a = b.
Proof.
  intros a b H. apply py_str_inj. rewrite <- (txt_untxt (py_str_Z a)), <- (txt_untxt (py_str_Z b)) by apply py_str_small.
  unfold str_Z in H. congruence.
Qed.

Lemma int_str_Z : forall z, py_int 10 (txt (str_Z z)) = Ok z.
Proof. intro z. unfold str_Z. rewrite txt_untxt by apply py_str_small. apply py_int_str. Qed.

Lemma next_free_some : forall fuel d n z, next_free fuel d n = Some z ->
  (n <= z)%Z /\ dget String.eqb (str_Z z) d = None /\
  (forall y, (n <= y < z)%Z -> dget String.eqb (str_Z y) d <> None).
Proof.
  induction fuel as [|f IH]; simpl; intros d n z H; [discriminate|]. unfold dmem in H.
  destruct (dget String.eqb (str_Z n) d) as [r|] eqn:E.
  - apply IH in H. destruct H as [H1 [H2 H3]]. split; [lia|]. split; auto.
    intros y Hy. destruct (Z.eq_dec y n) as [E'|E']; [subst; congruence|]. apply H3. lia.
  - injection H as H. subst z. split; [lia|]. split; auto. intros y Hy. lia.
Qed.

Lemma next_free_none : forall fuel d n, next_free fuel d n = None ->
  forall i, (i < fuel)%nat -> In (str_Z (n + Z.of_nat i)) (dkeys d).
Proof.
  induction fuel as [|f IH]; intros d n H i Hi; [lia|]. cbn [next_free] in H. unfold dmem in H.
  destruct (dget String.eqb (str_Z n) d) as [r|] eqn:E; [|discriminate].
  destruct i as [|i].
  - rewrite Z.add_0_r. apply (dget_In _ string_eqb_iff) in E. apply in_map_iff. exists (str_Z n, r). auto.
  - assert (Hi' : (i < f)%nat) by lia. specialize (IH _ _ H i Hi').
    replace (n + Z.of_nat (S i))%Z with (n + 1 + Z.of_nat i)%Z by lia. exact IH.
Qed.

Lemma next_free_total : forall d n, next_free (S (length d)) d n <> None.
Proof.
  intros d n H. pose proof (next_free_none _ _ _ H) as Hall.
  set (ks := map (fun i => str_Z (n + Z.of_nat i)) (seq 0 (S (length d)))).
  assert (Hnd : NoDup ks).
  { unfold ks. apply FinFun.Injective_map_NoDup; [|apply seq_NoDup].
    intros a b Hab. apply str_Z_inj in Hab. lia. }
  assert (Hincl : incl ks (dkeys d)).
  { intros k Hk. unfold ks in Hk. apply in_map_iff in Hk. destruct Hk as [i [Hi1 Hi2]]. subst k.
    apply Hall. apply in_seq in Hi2. lia. }
  pose proof (NoDup_incl_length Hnd Hincl) as Hl. unfold ks, dkeys in Hl.
  rewrite !map_length, seq_length in Hl. lia.
Qed.

Lemma ref_char_iff : forall c, ref_char c = true <-> id_char c.
Proof.
  intro c. unfold ref_char, id_char. rewrite !orb_true_iff, !andb_true_iff, !N.eqb_eq, !N.leb_le. simpl.
  split; intro H; [destruct H as [[[[[H|H]|H]|H]|H]|H]; auto 10|].
  destruct H as [[H|[H|[H|[H|[]]]]]|[H|H]]; subst; auto 10.
Qed.

Lemma ref_id_ok_iff : forall s, ref_id_ok s = true <-> id_syntax s.
Proof.
  intro s. unfold ref_id_ok, id_syntax. generalize (txt s). clear s. intro l. split.
  - induction l as [|c l IH]; intro H; [exists [], []; auto|].
    destruct l as [|d l].
    + simpl in H. apply orb_true_iff in H. destruct H as [H|H].
      * exists [c], []. split; auto. split; auto. constructor; auto. apply ref_char_iff. exact H.
      * apply N.eqb_eq in H. subst. exists [], [10]. auto.
    + change (ref_char c && ref_id_ok_txt (d :: l) = true)%bool in H. apply andb_true_iff in H.
      destruct H as [H1 H2]. destruct (IH H2) as [b [t [Hb1 [Hb2 Hb3]]]].
      exists (c :: b), t. split; [simpl; congruence|]. split; auto. constructor; auto. apply ref_char_iff. exact H1.
  - intros [b [t [H1 [H2 H3]]]]. subst l. induction b as [|c b IH]; simpl.
    + destruct H3 as [H3|H3]; subst; reflexivity.
    + inversion H2 as [|? ? Hc Hb]; subst. apply ref_char_iff in Hc.
      destruct (b ++ t)%list as [|d l] eqn:E; [rewrite Hc; reflexivity|].
      rewrite Hc. cbn [andb]. apply IH. exact Hb.
Qed.

Definition r_abs (m : refman) : rstate := mkR (r_lookup m) (rm_next m).

Lemma r_step_congr : forall a b o a' x, r_same a b -> r_step a o a' x ->
  exists b', r_step b o b' x /\ r_same a' b'.
Proof.
  intros a b o a' x [Hm Hn] H.
  assert (Hu : forall id v c k, r_map a id = r_map b id -> (forall k, r_map a k = r_map b k) ->
     r_upd (r_map a) id (Some (mkRef v c)) k = r_upd (r_map b) id (Some (mkRef v c)) k).
  { intros id v c k _ H'. unfold r_upd. destruct (String.eqb k id); auto. }
  destruct H as [v c id H|v c id H H'|v c id H H'|v c z Hz Hf Hall|id H|id n H Hn'|id v c H|id v c r H].
  - exists b. split; [|split; auto]. apply RS_add_exists. rewrite <- Hm. exact H.
  - exists b. split; [|split; auto]. apply RS_add_invalid; auto. rewrite <- Hm. exact H.
  - eexists. split; [apply RS_add; auto; rewrite <- Hm; exact H|]. split; simpl; auto.
  - eexists. split; [apply (RS_add_auto b v c z)|].
    + lia.
    + rewrite <- Hm. exact Hf.
    + intros y Hy. rewrite <- Hm. apply Hall. lia.
    + split; simpl; auto.
  - exists b. split; [|split; auto]. apply RS_del_missing. rewrite <- Hm. exact H.
  - eexists. split; [apply RS_del; [rewrite <- Hm; exact H|reflexivity]|].
    split; simpl; [intro k; unfold r_upd; destruct (String.eqb k id); auto|].
    subst n. rewrite Hn. reflexivity.
  - exists b. split; [|split; auto]. apply RS_update_missing. rewrite <- Hm. exact H.
  - eexists. split; [apply (RS_update b id v c r); rewrite <- Hm; exact H|].
    split; simpl; auto.
Qed.

Lemma r_run_congr : forall a ops a' xs, r_run a ops a' xs -> forall b, r_same a b ->
  exists b', r_run b ops b' xs /\ r_same a' b'.
Proof.
  intros a ops a' xs H. induction H as [a|a o a' x ops a'' xs Hs Hr IH]; intros b Hb.
  - exists b. split; auto. constructor.
  - destruct (r_step_congr _ _ _ _ _ Hb Hs) as [b1 [H1 H2]]. destruct (IH b1 H2) as [b2 [H3 H4]].
    exists b2. split; auto. econstructor; eauto.
Qed.

Lemma dset_lookup : forall m k v n k', r_lookup (mkRefman (dset String.eqb k v (rm_refs m)) n) k' =
  r_upd (r_lookup m) k (Some v) k'.
Proof. intros m k v n k'. unfold r_lookup, r_upd. simpl. apply (dget_dset _ string_eqb_iff). Qed.

Lemma ref_step_sim : forall m o, NoDup (dkeys (rm_refs m)) ->
  let '(m', x) := ref_step m o in
  NoDup (dkeys (rm_refs m')) /\ exists a', r_step (r_abs m) o a' x /\ r_same a' (r_abs m').
Proof.
  intros m o Hnd. destruct o as [v c id|id|id v c]; simpl.
  - destruct id as [id|]; simpl.
    + unfold dmem. destruct (dget String.eqb id (rm_refs m)) as [r|] eqn:E.
      * split; auto. eexists. split; [|split; reflexivity].
        apply RS_add_exists. simpl. unfold r_lookup. rewrite E. discriminate.
      * destruct (ref_id_ok id) eqn:Eok; simpl.
        -- split; [apply (dset_NoDup _ string_eqb_iff); exact Hnd|]. eexists. split.
           ++ apply RS_add; [exact E|]. apply ref_id_ok_iff. exact Eok.
           ++ split; simpl; auto. intro k. symmetry. apply (dset_lookup m id (mkRef v c) (rm_next m)).
        -- split; auto. eexists. split; [|split; reflexivity]. apply RS_add_invalid; [exact E|].
           rewrite <- ref_id_ok_iff, Eok. discriminate.
    + pose proof (next_free_total (rm_refs m) (rm_next m)) as Ht. cbn [next_free] in Ht.
      change (if dmem String.eqb (str_Z (rm_next m)) (rm_refs m)
              then next_free (length (rm_refs m)) (rm_refs m) (rm_next m + 1)
              else Some (rm_next m)) with (next_free (S (length (rm_refs m))) (rm_refs m) (rm_next m)) in *.
      destruct (next_free (S (length (rm_refs m))) (rm_refs m) (rm_next m)) as [z|] eqn:E; [|congruence].
      apply next_free_some in E. destruct E as [H1 [H2 H3]].
      split; [apply (dset_NoDup _ string_eqb_iff); exact Hnd|]. eexists. split.
      * apply (RS_add_auto (r_abs m) v c z); auto.
      * split; simpl; auto. intro k. symmetry. apply (dset_lookup m (str_Z z) (mkRef v c) z).
  - unfold rm_del, dmem. destruct (dget String.eqb id (rm_refs m)) as [r|] eqn:E.
    + assert (Hl : forall n k, r_upd (r_lookup m) id None k = r_lookup (mkRefman (ddel String.eqb id (rm_refs m)) n) k).
      { intros n k. unfold r_lookup, r_upd. simpl. symmetry. apply (dget_ddel _ string_eqb_iff). exact Hnd. }
      destruct (py_int 10 (txt id)) as [z|e] eqn:Ei.
      * split; [apply ddel_NoDup; exact Hnd|]. eexists. split.
        -- apply RS_del; [simpl; unfold r_lookup; rewrite E; discriminate|reflexivity].
        -- split; simpl; [intro k; apply Hl|]. rewrite Ei. destruct (Z.ltb_spec z (rm_next m)); lia.
      * split; [apply ddel_NoDup; exact Hnd|]. eexists. split.
        -- apply RS_del; [simpl; unfold r_lookup; rewrite E; discriminate|reflexivity].
        -- split; simpl; [intro k; apply Hl|]. rewrite Ei. reflexivity.
    + split; auto. eexists. split; [|split; reflexivity]. apply RS_del_missing. exact E.
  - unfold rm_update. destruct (dget String.eqb id (rm_refs m)) as [r|] eqn:E.
    + split; [apply (dset_NoDup _ string_eqb_iff); exact Hnd|]. eexists. split.
      * apply (RS_update (r_abs m) id v c r). exact E.
      * split; simpl; auto. intro k. symmetry. apply dset_lookup.
    + split; auto. eexists. split; [|split; reflexivity]. apply RS_update_missing. exact E.
Qed.

Lemma ref_run_sim : forall ops m, NoDup (dkeys (rm_refs m)) ->
  let '(m', xs) := ref_run m ops in
  NoDup (dkeys (rm_refs m')) /\ exists a', r_run (r_abs m) ops a' xs /\ r_same a' (r_abs m').
Proof.
  induction ops as [|o ops IH]; intros m Hnd; simpl.
  - split; auto. eexists. split; [constructor|split; auto].
  - pose proof (ref_step_sim m o Hnd) as Hs. destruct (ref_step m o) as [m1 x].
    destruct Hs as [Hnd1 [a1 [Hs1 Hs2]]]. specialize (IH m1 Hnd1).
    destruct (ref_run m1 ops) as [m2 xs]. destruct IH as [Hnd2 [a2 [Hr1 Hr2]]].
    split; auto. assert (Hs2' : r_same (r_abs m1) a1) by (destruct Hs2; split; auto).
    destruct (r_run_congr _ _ _ _ Hr1 _ Hs2') as [a3 [H3 H4]]. exists a3. split; [econstructor; eauto|].
    destruct H4 as [H5 H6], Hr2 as [H7 H8]. split; [intro k; rewrite <- H5; apply H7|congruence].
Qed.

(** Every history of the reference manager is a history of the specification
    with the same outputs and the same resulting table. *)
Theorem references_refine : forall ops,
  let '(m, outs) := ref_run empty_refman ops in
  NoDup (dkeys (rm_refs m)) /\
  exists a, r_run r_empty ops a outs /\ (forall k, r_lookup m k = r_map a k) /\ rm_next m = r_next a.
Proof.
  intro ops. pose proof (ref_run_sim ops empty_refman) as H.
  destruct (ref_run empty_refman ops) as [m outs]. destruct H as [H1 [a [H2 [H3 H4]]]]; [constructor|].
  split; auto. exists a. split; auto. split; auto. intro k. symmetry. apply H3.
Qed.

(** The specification never overwrites and is deterministic. *)
Theorem r_step_add_fresh : forall a v c id a' s, r_step a (RAdd v c id) a' (ROk s) ->
  r_map a s = None /\ r_map a' s = Some (mkRef v c) /\ (forall k, k <> s -> r_map a' k = r_map a k).
Proof.
  intros a v c id a' s H.
  assert (Hk : forall k x, k <> x -> String.eqb k x = false).
  { intros k x Hn. destruct (String.eqb k x) eqn:E; auto. apply string_eqb_iff in E. congruence. }
  inversion H as [| |v0 c0 id0 H1 H2|v0 c0 z H1 H2 H3| | | |]; subst; clear H; simpl;
    (split; [assumption|]); unfold r_upd; (split; [rewrite String.eqb_refl; reflexivity|]);
    intros k Hn; rewrite Hk; auto.
Qed.

Theorem r_step_deterministic : forall a o a1 x1 a2 x2,
  r_step a o a1 x1 -> r_step a o a2 x2 -> x1 = x2 /\ r_same a1 a2.
Proof.
  intros a o a1 x1 a2 x2 H1 H2.
  inversion H1; subst; inversion H2; subst; try contradiction; try congruence;
    try (split; [reflexivity|split; reflexivity]).
  - assert (z = z0).
    { destruct (Z.lt_trichotomy z z0) as [Hlt|[Hlt|Hlt]]; auto; exfalso.
      - match goal with Ha : forall y, (_ <= y < z0)%Z -> _ |- _ => apply (Ha z); [lia|assumption] end.
      - match goal with Ha : forall y, (_ <= y < z)%Z -> _ |- _ => apply (Ha z0); [lia|assumption] end. }
    subst. split; [reflexivity|split; reflexivity].
  - split; auto. replace r0 with r by congruence. split; reflexivity.
Qed.
