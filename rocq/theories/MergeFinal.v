From Coq Require Import Permutation Sorting.Sorted.
From Verif Require Import Base BaseFacts CharModel RepSpec RepProofs VariantProofs IterProofs VarSetSpec VarSetProofs.
From Verif Require Import RefModel RefSpec RefProofs ActionModel LgrModel LgrSpec LgrProofs LgrReach LgrInv LgrRefs LgrFinal.
From Verif Require Import ValidateModel ValidateSpec ValidateProofs PopulateModel PopulateSpec PopulateProofs.
From Verif Require Import CompareModel CompareProofs HarmonizeModel HarmonizeSpec HarmonizeProofs HarmonizeFinal MergeModel MergeProofs MergeSteps MergeLoop MergeSpec MergeRefs MergeFold.
Open Scope string_scope.
Open Scope list_scope.

Lemma prefixed_renamed : forall s o, prefixed s o = renamed s o.
Proof. intros s [n|]; [|reflexivity]. unfold prefixed, renamed, truthy, with_script. destruct (String.eqb n ""); reflexivity. Qed.
Lemma carried_copied : forall m mp v, copied m v (carried (get_script m) mp v).
Proof. intros m mp v. unfold copied, carried. cbn. rewrite !prefixed_renamed. auto. Qed.
Lemma sorted_in : forall m l, In m (isort script_leb l) <-> In m l. Proof. intros. apply isort_In. Qed.
Lemma sorted_perm : forall l, Permutation l (isort script_leb l). Proof. intros. apply isort_perm. Qed.
Lemma fresh_dec : forall g c v, fresh_at g c v \/ exists u, mapping (lg_rep g) c (v_cp v) u /\ vkey u = vkey v.
Proof.
  intros g c v. destruct (lk (lg_rep g) c) as [ex|] eqn:E.
  - destruct (memb variant_eqb v (get_variants ex)) eqn:M.
    + right. apply memb_vkey in M. apply in_map_iff in M. destruct M as [u [U1 U2]]. exists u. split; [|exact U1]. apply mapping_lk. exists ex.
      split; [exact E|]. split; [exact U2|]. unfold vkey in U1. congruence.
    + left. apply (fresh_iff g c ex v E). intro H. apply memb_vkey in H. congruence.
  - left. intros u Hu. rewrite mapping_lk, E in Hu. destruct Hu as [x [X _]]. discriminate.
Qed.
Lemma in_two_more : forall D m c, in_two D c -> in_two (D ++ [m]) c.
Proof. intros D m c [m1 [m2 [rest [H1 H2]]]]. exists m1, m2, (rest ++ [m]). split; [|exact H2]. apply (Permutation_app_tail [m]) in H1. exact H1. Qed.
Lemma in_two_last : forall D m m1 c, In m1 D -> has_cp m1 c -> has_cp m c -> in_two (D ++ [m]) c.
Proof.
  intros D m m1 c H1 H2 H3. apply in_split in H1. destruct H1 as [l1 [l2 ->]]. exists m1, m, (l1 ++ l2). split; [|auto].
  rewrite <- app_assoc. cbn. eapply perm_trans; [apply Permutation_sym, Permutation_middle|]. apply perm_skip. rewrite app_assoc. eapply perm_trans; [apply Permutation_sym, Permutation_cons_append|]. reflexivity.
Qed.

Section Ord.
  Variable ord_names : list string -> list string.
  Variable ord_variants : list variant -> list variant.
  Hypothesis Pn : any_order ord_names.
  Hypothesis Pv : any_order ord_variants.
  Notation took := (took ord_names).
  Notation merged_ind := (merged_ind ord_names ord_variants Pv).

  Definition Q_entries (D : list member) (st : merged) : Prop := forall a, lk (lg_rep (mg_lgr st)) a <> None <-> exists m, In m D /\ has_cp m a.
  Lemma entries_start : Q_entries [] start.
  Proof. intro a. rewrite start_lk. split; [congruence|]. intros [m [[] _]]. Qed.
  Lemma entries_step : forall D st m st' P, Q_entries D st -> took (map get_script D) st st' m P -> Q_entries (D ++ [m]) st'.
  Proof.
    intros D st m st' P H T a. rewrite (tk_entries _ _ _ _ _ _ T), (H a). unfold has_cp. split.
    - intros [[x [X1 X2]]|X]; [exists x; rewrite in_app_iff; auto|]. exists m. rewrite in_app_iff. cbn. rewrite lookup_lk. auto.
    - intros [x [X1 X2]]. apply in_app_iff in X1. destruct X1 as [X1|[<-|[]]]; [left; eauto|right; rewrite lookup_lk in X2; exact X2].
  Qed.
  Theorem code_points_merged : forall l st, (forall m, In m l -> tidy (mb_lgr m)) -> merge_lgr_set ord_names ord_variants l = Ok st ->
    forall c, lookup (lg_rep (mg_lgr st)) c <> None <-> exists m, In m l /\ has_cp m c.
  Proof.
    intros l st T E c. destruct (merged_ind Q_entries l st (fun D st m st' P _ H _ K => entries_step D st m st' P H K) T entries_start E) as [H _].
    rewrite lookup_lk, (H c). split; intros [m [M1 M2]]; exists m; (split; [apply sorted_in; exact M1|exact M2]).
  Qed.

  (** ** Variants *)
  Lemma took_target : forall pr st st' m P a b, took pr st st' m P -> has_target (lg_rep (mg_lgr st)) a b -> has_target (lg_rep (mg_lgr st')) a b.
  Proof. intros pr st st' m P a b T [w Hw]. exists w. apply (tk_map _ _ _ _ _ _ T). auto. Qed.
  Lemma took_new : forall pr st st' m P a b v, took pr st st' m P -> mapping (lg_rep (mb_lgr m)) a b v ->
    exists w, mapping (lg_rep (mg_lgr st')) a b w /\ (copied m v w \/ vkey w = vkey v).
  Proof.
    intros pr st st' m P a b v T Hv. assert (Hb : v_cp v = b) by (destruct Hv as [? [_ [_ X]]]; exact X). destruct (fresh_dec (mg_lgr st) a v) as [F|[u [U1 U2]]].
    - exists (carried (get_script m) (mapping_of (mg_map st') (get_script m)) v). split; [|left; apply carried_copied].
      apply (tk_map _ _ _ _ _ _ T). right. left. exists v. auto.
    - exists u. split; [|right; exact U2]. apply (tk_map _ _ _ _ _ _ T). left. congruence.
  Qed.
  Definition Q_from (D : list member) (st : merged) : Prop := Q_entries D st /\
    forall a b w, mapping (lg_rep (mg_lgr st)) a b w ->
      (exists m v, In m D /\ mapping (lg_rep (mb_lgr m)) a b v /\ copied m v w) \/
      (joins w /\ exists c, in_two D c /\ has_target (lg_rep (mg_lgr st)) c a /\ has_target (lg_rep (mg_lgr st)) c b).
  Lemma from_step : forall D st m st' P, Q_from D st -> took (map get_script D) st st' m P -> Q_from (D ++ [m]) st'.
  Proof.
    intros D st m st' P [HE HF] T. split; [eapply entries_step; eauto|]. intros a b w Hw. apply (tk_map _ _ _ _ _ _ T) in Hw. destruct Hw as [Hw|[[v [V1 [V2 ->]]]|[Hb J]]].
    - destruct (HF a b w Hw) as [[x [v [X1 X2]]]|[X1 [c [X2 [X3 X4]]]]].
      + left. exists x, v. rewrite in_app_iff. auto.
      + right. split; [exact X1|]. exists c. split; [apply in_two_more; exact X2|]. split; eapply took_target; eauto.
    - left. exists m, v. rewrite in_app_iff. split; [cbn; auto|]. split; [exact V1|apply carried_copied].
    - right. destruct J as [l1 [l2 [v1 [v2 [J1 [J2 [J3 J4]]]]]]]. destruct (tk_pairs _ _ _ _ _ _ T _ J1) as [c [C1 [C2 [C3 [C4 _]]]]]. cbn [fst snd] in *.
      assert (H2 : in_two (D ++ [m]) c).
      { apply HE in C2. destruct C2 as [x [X1 X2]]. apply (in_two_last D m x c X1 X2). unfold has_cp. rewrite lookup_lk. exact C1. }
      assert (H3 : has_target (lg_rep (mg_lgr st')) c (v_cp v1)) by (destruct (took_new _ _ _ _ _ _ _ _ T (proj1 (C3 _ J2))) as [u [U1 _]]; exists u; exact U1).
      assert (H4 : has_target (lg_rep (mg_lgr st')) c (v_cp v2)) by (eapply took_target; [exact T|]; exists v2; apply C4; exact J3).
      destruct J4 as [[-> ->]|[-> ->]]; (split; [unfold joins; cbn; auto|]); exists c; cbn in Hb; subst b; auto.
  Qed.
  Theorem variants_from : forall l st, (forall m, In m l -> tidy (mb_lgr m)) -> merge_lgr_set ord_names ord_variants l = Ok st ->
    forall a b w, mapping (lg_rep (mg_lgr st)) a b w ->
      (exists m v, In m l /\ mapping (lg_rep (mb_lgr m)) a b v /\ copied m v w) \/
      (joins w /\ exists c, in_two l c /\ has_target (lg_rep (mg_lgr st)) c a /\ has_target (lg_rep (mg_lgr st)) c b).
  Proof.
    intros l st T E a b w Hw. destruct (merged_ind Q_from l st (fun D st m st' P _ H _ K => from_step D st m st' P H K) T) as [[_ H] _]; [|exact E|].
    - split; [apply entries_start|]. intros x y u Hu. destruct (start_map _ _ _ Hu).
    - destruct (H a b w Hw) as [[m [v [M1 M2]]]|[M1 [c [[m1 [m2 [rest [C1 C2]]]] C3]]]].
      + left. exists m, v. split; [apply sorted_in; exact M1|exact M2].
      + right. split; [exact M1|]. exists c. split; [|exact C3]. exists m1, m2, rest. split; [|exact C2]. eapply perm_trans; [apply sorted_perm|exact C1].
  Qed.
  Definition Q_kept (D : list member) (st : merged) : Prop := forall m a b v, In m D -> mapping (lg_rep (mb_lgr m)) a b v ->
    exists w, mapping (lg_rep (mg_lgr st)) a b w /\ (copied m v w \/ vkey w = vkey v).
  Theorem variants_kept : forall l st, (forall m, In m l -> tidy (mb_lgr m)) -> merge_lgr_set ord_names ord_variants l = Ok st ->
    forall m a b v, In m l -> mapping (lg_rep (mb_lgr m)) a b v ->
    exists w, mapping (lg_rep (mg_lgr st)) a b w /\ (copied m v w \/ vkey w = vkey v).
  Proof.
    intros l st T E m a b v Hm Hv.
    assert (H : Q_kept (isort script_leb l) st).
    { apply (merged_ind Q_kept l st); [| exact T| |exact E].
      - intros D s x s' P _ H _ K y c d u Hy Hu. apply in_app_iff in Hy. destruct Hy as [Hy|[<-|[]]].
        + destruct (H y c d u Hy Hu) as [w [W1 W2]]. exists w. split; [|exact W2]. apply (tk_map _ _ _ _ _ _ K). auto.
        + eapply took_new; eauto.
      - intros y c d u []. }
    apply (H m a b v); [apply sorted_in; exact Hm|exact Hv].
  Qed.
  Definition Q_sym (D : list member) (st : merged) : Prop := forall a b, has_target (lg_rep (mg_lgr st)) a b -> has_target (lg_rep (mg_lgr st)) b a.
  Lemma target_source_lk : forall r a b, has_target r a b -> lookup r a <> None.
  Proof. intros r a b [w [ch [H _]]]. congruence. Qed.
  Theorem merge_symmetric : forall l st, (forall m, In m l -> tidy (mb_lgr m)) -> merge_lgr_set ord_names ord_variants l = Ok st ->
    (forall m, In m l -> symmetric (lg_rep (mb_lgr m))) -> symmetric (lg_rep (mg_lgr st)).
  Proof.
    intros l st T E S.
    assert (H : Q_sym (isort script_leb l) st).
    { apply (merged_ind Q_sym l st); [| exact T| |exact E].
      - intros D s m s' P Hm H _ K a b [w Hw]. apply (tk_map _ _ _ _ _ _ K) in Hw. destruct Hw as [Hw|[[v [V1 _]]|[Hb J]]].
        + eapply took_target; [exact K|]. apply H. exists w. exact Hw.
        + destruct (S m Hm a b) as [_ [u Hu]]; [exists v; exact V1|]. destruct (took_new _ _ _ _ _ _ _ _ K Hu) as [x [X _]]. exists x. exact X.
        + destruct J as [l1 [l2 [v1 [v2 [J1 [J2 [J3 J4]]]]]]].
          assert (G : forall a u, joined_one v1 v2 a u -> mapping (lg_rep (mg_lgr s')) a (v_cp u) u).
          { intros a0 u Hu. apply (tk_map _ _ _ _ _ _ K). right. right. split; [reflexivity|]. exists l1, l2, v1, v2. auto. }
          destruct J4 as [[-> ->]|[-> ->]]; cbn in Hb; subst b.
          * exists (joining (v_cp v1)). apply (G (v_cp v2) (joining (v_cp v1))). right. auto.
          * exists (joining (v_cp v2)). apply (G (v_cp v1) (joining (v_cp v2))). left. auto.
      - intros a b [w Hw]. destruct (start_map _ _ _ Hw). }
    intros a b Hab. apply H in Hab. split; [eapply target_source_lk; eauto|exact Hab].
  Qed.

  Lemma same_member : forall (l : list member) m1 m2 c, In m1 l -> In m2 l -> has_cp m1 c -> has_cp m2 c -> ~ in_two l c -> m1 = m2.
  Proof.
    intros l m1 m2 c H1 H2 C1 C2 Hn. apply in_split in H1. destruct H1 as [l1 [l2 ->]]. rewrite in_app_iff in H2. cbn in H2.
    assert (X : m1 = m2 \/ In m2 (l1 ++ l2)) by (rewrite in_app_iff; tauto). destruct X as [X|X]; [exact X|]. exfalso. apply Hn.
    apply in_split in X. destruct X as [k1 [k2 X]]. exists m1, m2, (k1 ++ k2). split; [|auto].
    eapply perm_trans; [apply Permutation_sym, Permutation_middle|]. apply perm_skip. rewrite X. apply Permutation_sym, Permutation_middle.
  Qed.
  Theorem disjoint_targets : forall l st, (forall m, In m l -> tidy (mb_lgr m)) -> merge_lgr_set ord_names ord_variants l = Ok st ->
    (forall c, ~ in_two l c) -> forall a b, has_target (lg_rep (mg_lgr st)) a b <-> exists m, In m l /\ has_target (lg_rep (mb_lgr m)) a b.
  Proof.
    intros l st T E Hd a b. split.
    - intros [w Hw]. destruct (variants_from l st T E a b w Hw) as [[m [v [M1 [M2 _]]]]|[_ [c [C _]]]]; [exists m; split; [exact M1|exists v; exact M2]|destruct (Hd c C)].
    - intros [m [M1 [v M2]]]. destruct (variants_kept l st T E m a b v M1 M2) as [w [W _]]. exists w. exact W.
  Qed.
  Theorem disjoint_transitive : forall l st, (forall m, In m l -> tidy (mb_lgr m)) -> merge_lgr_set ord_names ord_variants l = Ok st ->
    (forall c, ~ in_two l c) -> (forall m, In m l -> transitive (lg_rep (mb_lgr m))) -> transitive (lg_rep (mg_lgr st)).
  Proof.
    intros l st T E Hd Ht a b Hab. pose proof (disjoint_targets l st T E Hd) as H. apply H in Hab. destruct Hab as [m [M1 M2]]. destruct (Ht m M1 a b M2) as [B1 B2]. split.
    - apply (code_points_merged l st T E). exists m. auto.
    - intros c Hbc Hne. apply H in Hbc. destruct Hbc as [m' [N1 N2]].
      assert (X : m = m') by (apply (same_member l m m' b M1 N1); [exact B1|eapply target_source_lk; exact N2|apply Hd]). subst m'. apply H. exists m. auto.
  Qed.

  (** ** References *)
  Definition Q_refs (D : list member) (st : merged) : Prop :=
    (forall k r, dget String.eqb k (rm_refs (lg_refs (mg_lgr st))) = Some r -> exists m id, In m D /\ dget String.eqb id (rm_refs (lg_refs (mb_lgr m))) = Some r) /\
    (forall m id t, In m D -> text_in (mb_lgr m) id = Some t -> exists k, text_in (mg_lgr st) k = Some t).
  Theorem references_merged : forall l st, (forall m, In m l -> tidy (mb_lgr m)) -> merge_lgr_set ord_names ord_variants l = Ok st ->
    (forall k r, dget String.eqb k (rm_refs (lg_refs (mg_lgr st))) = Some r -> exists m id, In m l /\ dget String.eqb id (rm_refs (lg_refs (mb_lgr m))) = Some r) /\
    (forall m id t, In m l -> text_in (mb_lgr m) id = Some t -> exists k, text_in (mg_lgr st) k = Some t).
  Proof.
    intros l st T E.
    assert (H : Q_refs (isort script_leb l) st).
    { apply (merged_ind Q_refs l st); [|exact T| |exact E].
      - intros D s m s' P _ [H1 H2] _ K. split.
        + intros k r Hk. destruct (tk_refs_from _ _ _ _ _ _ K k r Hk) as [Y|[id Y]].
          * destruct (H1 k r Y) as [x [id [X1 X2]]]. exists x, id. rewrite in_app_iff. auto.
          * exists m, id. rewrite in_app_iff. cbn. auto.
        + intros x id t Hx Ht. apply in_app_iff in Hx. unfold text_in in *. destruct Hx as [Hx|[<-|[]]].
          * destruct (H2 x id t Hx Ht) as [k Hk]. destruct (dget String.eqb k (rm_refs (lg_refs (mg_lgr s)))) as [r|] eqn:Er; [|discriminate].
            exists k. rewrite (tk_kept _ _ _ _ _ _ K k r Er). exact Hk.
          * destruct (dget String.eqb id (rm_refs (lg_refs (mb_lgr m)))) as [r|] eqn:Er; [|discriminate]. cbn in Ht.
            destruct (tk_texts _ _ _ _ _ _ K id r Er) as [k [r' [K1 K2]]]. exists k. rewrite K1. cbn. congruence.
      - split; [intros k r Hk; discriminate|intros m id t []]. }
    destruct H as [H1 H2]. split.
    - intros k r Hk. destruct (H1 k r Hk) as [m [id [M1 M2]]]. exists m, id. split; [apply sorted_in; exact M1|exact M2].
    - intros m id t Hm. apply H2. apply sorted_in. exact Hm.
  Qed.
  Definition Q_maps (D : list member) (st : merged) : Prop := forall s, ~ In s (map get_script D) -> mapping_of (mg_map st) s = [].
  Lemma maps_step : forall D st m st' P, Q_maps D st -> took (map get_script D) st st' m P -> Q_maps (D ++ [m]) st'.
  Proof.
    intros D st m st' P H K s Hs. rewrite map_app, in_app_iff in Hs. cbn in Hs. rewrite (tk_maps _ _ _ _ _ _ K) by (intro X; apply Hs; right; left; auto). apply H. tauto.
  Qed.
  Lemma nodup_last : forall (D : list member) m, NoDup (map get_script (D ++ [m])) -> NoDup (map get_script D) /\ ~ In (get_script m) (map get_script D).
  Proof.
    intros D m H. rewrite map_app in H. cbn in H. split; [apply NoDup_remove_1 in H; rewrite app_nil_r in H; exact H|]. apply NoDup_remove_2 in H. rewrite app_nil_r in H. exact H.
  Qed.
  Lemma text_grows : forall pr st st' m P k t, took pr st st' m P -> text_in (mg_lgr st) k = Some t -> text_in (mg_lgr st') k = Some t.
  Proof.
    intros pr st st' m P k t K H. unfold text_in in *. destruct (dget String.eqb k (rm_refs (lg_refs (mg_lgr st)))) as [r|] eqn:Er; [|discriminate].
    rewrite (tk_kept _ _ _ _ _ _ K k r Er). exact H.
  Qed.
  Lemma mapped_texts : forall D st m st' P ids, Q_maps D st -> ~ In (get_script m) (map get_script D) -> took (map get_script D) st st' m P ->
    Forall2 (same_text (mb_lgr m) (mg_lgr st')) ids (map (mapped (mapping_of (mg_map st') (get_script m))) ids).
  Proof.
    intros D st m st' P ids Q Hn K. induction ids as [|id ids IH]; [constructor|]. constructor; [|exact IH]. intros t Ht. unfold text_in in *.
    destruct (dget String.eqb id (rm_refs (lg_refs (mb_lgr m)))) as [r|] eqn:Er; [|discriminate]. cbn in Ht.
    destruct (tk_refs _ _ _ _ _ _ K id r Er) as [r' [R1 R2]]; [rewrite (Q _ Hn); reflexivity|]. rewrite R1. cbn. congruence.
  Qed.
  Lemma texts_grow : forall pr g st st' m P a b, took pr st st' m P -> Forall2 (same_text g (mg_lgr st)) a b -> Forall2 (same_text g (mg_lgr st')) a b.
  Proof. intros pr g st st' m P a b K F. induction F as [|x y a b H F IH]; constructor; auto. intros t Ht. eapply text_grows; [exact K|]. apply H. exact Ht. Qed.

  Definition Q_vrefs (D : list member) (st : merged) : Prop := Q_maps D st /\ (NoDup (map get_script D) -> forall a b w, mapping (lg_rep (mg_lgr st)) a b w ->
    joins w \/ exists m v, In m D /\ mapping (lg_rep (mb_lgr m)) a b v /\ copied m v w /\ Forall2 (same_text (mb_lgr m) (mg_lgr st)) (v_refs v) (v_refs w)).
  Theorem variant_references : forall l st, (forall m, In m l -> tidy (mb_lgr m)) -> merge_lgr_set ord_names ord_variants l = Ok st -> NoDup (map get_script l) ->
    forall a b w, mapping (lg_rep (mg_lgr st)) a b w -> joins w \/
      exists m v, In m l /\ mapping (lg_rep (mb_lgr m)) a b v /\ copied m v w /\ Forall2 (same_text (mb_lgr m) (mg_lgr st)) (v_refs v) (v_refs w).
  Proof.
    intros l st T E Hn.
    assert (H : Q_vrefs (isort script_leb l) st).
    { apply (merged_ind Q_vrefs l st); [|exact T| |exact E].
      - intros D s m s' P _ [H1 H2] _ K. split; [eapply maps_step; eauto|]. intros N a b w Hw. destruct (nodup_last _ _ N) as [N1 N2].
        apply (tk_map _ _ _ _ _ _ K) in Hw. destruct Hw as [Hw|[[v [V1 [V2 ->]]]|[Hb J]]].
        + destruct (H2 N1 a b w Hw) as [J|[x [v [X1 [X2 [X3 X4]]]]]]; [auto|]. right. exists x, v. rewrite in_app_iff. repeat (split; [auto|]). eapply texts_grow; eauto.
        + right. exists m, v. rewrite in_app_iff. split; [cbn; auto|]. split; [exact V1|]. split; [apply carried_copied|]. cbn [carried v_refs]. eapply mapped_texts; eauto.
        + left. destruct J as [l1 [l2 [v1 [v2 [_ [_ [_ [[_ ->]|[_ ->]]]]]]]]]; unfold joins; cbn; auto.
      - split; [intros s _; reflexivity|]. intros _ a b w Hw. destruct (start_map _ _ _ Hw). }
    destruct H as [_ H]. intros a b w Hw. destruct (H (Permutation_NoDup (Permutation_map _ (sorted_perm l)) Hn) a b w Hw) as [J|[m [v [M1 M2]]]]; [auto|].
    right. exists m, v. split; [apply sorted_in; exact M1|exact M2].
  Qed.

  (** ** Code points of one member *)
  Definition alone_as (m : member) (st : merged) (c : cps) : Prop :=
    exists ch ch', lookup (lg_rep (mb_lgr m)) c = Some ch /\ lookup (lg_rep (mg_lgr st)) c = Some ch' /\ ch_comment ch' = ch_comment ch /\
      ch_when ch' = renamed (get_script m) (ch_when ch) /\ ch_not_when ch' = renamed (get_script m) (ch_not_when ch).
  Definition alone_refs (m : member) (st : merged) (c : cps) : Prop :=
    forall ch ch', lookup (lg_rep (mb_lgr m)) c = Some ch -> lookup (lg_rep (mg_lgr st)) c = Some ch' -> Forall2 (same_text (mb_lgr m) (mg_lgr st)) (ch_refs ch) (ch_refs ch').
  Definition Q_alone (D : list member) (st : merged) : Prop := Q_entries D st /\ Q_maps D st /\
    forall m c, only_member D m c -> alone_as m st c /\ (NoDup (map get_script D) -> alone_refs m st c).
  Lemma alone_step : forall D st m st' P, Q_alone D st -> took (map get_script D) st st' m P -> Q_alone (D ++ [m]) st'.
  Proof.
    intros D st m st' P [H1 [H2 H3]] K. split; [eapply entries_step; eauto|]. split; [eapply maps_step; eauto|]. intros x c [Hx [rest [R1 R2]]].
    assert (Hi : In m (x :: rest)) by (apply (Permutation_in _ R1); apply in_app_iff; cbn; auto).
    assert (Hcase : (m = x /\ forall y, In y D -> ~ has_cp y c) \/ (only_member D x c /\ ~ has_cp m c)).
    { destruct Hi as [<-|Hi].
      - left. split; [reflexivity|]. intros y Hy. apply R2. apply (Permutation_in y (l := D)); [|exact Hy].
        apply (Permutation_cons_inv (a := x)). eapply perm_trans; [apply Permutation_cons_append|exact R1].
      - right. split; [|apply R2; exact Hi]. split; [exact Hx|]. apply in_split in Hi. destruct Hi as [r1 [r2 ->]]. exists (r1 ++ r2). split.
        + apply (Permutation_cons_inv (a := m)). eapply perm_trans; [apply Permutation_cons_append|]. eapply perm_trans; [exact R1|].
          eapply perm_trans; [apply perm_skip, Permutation_sym, Permutation_middle|apply perm_swap].
        + intros y Hy. apply R2. rewrite in_app_iff in *. cbn. tauto. }
    destruct Hcase as [[<- Hno]|[Ho Hno]].
    - unfold has_cp in Hx. rewrite lookup_lk in Hx. destruct (lk (lg_rep (mb_lgr m)) c) as [ch|] eqn:Ec; [|congruence].
      destruct (tk_here _ _ _ _ _ _ K c ch Ec) as [ch' [C1 C2]].
      assert (Hg : lk (lg_rep (mg_lgr st)) c = None) by (apply not_none; intro X; apply H1 in X; destruct X as [y [Y1 Y2]]; destruct (Hno y Y1 Y2)).
      rewrite Hg in C2. destruct C2 as [D1 [D2 [D3 [D4 [D5 [D6 D7]]]]]]. cbn in D3, D4, D6, D7. split.
      + exists ch, ch'. rewrite !lookup_lk. split; [exact Ec|]. split; [exact C1|]. rewrite <- !prefixed_renamed. auto.
      + intros N a b Ha Hb. rewrite lookup_lk in Ha, Hb. rewrite Ec in Ha. rewrite C1 in Hb. injection Ha as <-. injection Hb as <-. rewrite D4.
        destruct (nodup_last _ _ N) as [_ N2]. eapply mapped_texts; eauto.
    - destruct (H3 x c Ho) as [[ch [ch' [A1 [A2 A3]]]] A4]. unfold has_cp in Hno. rewrite lookup_lk in *. apply not_none in Hno.
      destruct (tk_old _ _ _ _ _ _ K c ch' Hno A2) as [y [Y1 [Y2 [Y3 [Y4 [Y5 [Y6 [Y7 Y8]]]]]]]]. split.
      + exists ch, y. rewrite !lookup_lk. split; [exact A1|]. split; [exact Y1|]. rewrite Y4, Y7, Y8. exact A3.
      + intros N a b Ha Hb. rewrite lookup_lk in Hb. rewrite Y1 in Hb. injection Hb as <-. rewrite Y5. destruct (nodup_last _ _ N) as [N1 _].
        eapply texts_grow; [exact K|]. apply (A4 N1 a ch' Ha). rewrite lookup_lk. exact A2.
  Qed.
  Theorem alone_kept : forall l st, (forall m, In m l -> tidy (mb_lgr m)) -> merge_lgr_set ord_names ord_variants l = Ok st ->
    forall m c, only_member l m c -> alone_as m st c /\ (NoDup (map get_script l) -> alone_refs m st c).
  Proof.
    intros l st T E m c [H1 [rest [R1 R2]]].
    destruct (merged_ind Q_alone l st (fun D st m st' P _ H _ K => alone_step D st m st' P H K) T) as [[_ [_ H]] _]; [|exact E|].
    - split; [apply entries_start|]. split; [intros s _; reflexivity|]. intros x y [_ [r [X _]]]. apply Permutation_nil in X. discriminate.
    - destruct (H m c) as [A B].
      + split; [exact H1|]. exists rest. split; [|exact R2]. eapply perm_trans; [apply Permutation_sym, sorted_perm|exact R1].
      + split; [exact A|]. intro N. apply B. apply (Permutation_NoDup (Permutation_map _ (sorted_perm l)) N).
  Qed.

  (** ** Tags *)
  Definition Q_tags (D : list member) (st : merged) : Prop := Q_entries D st /\ forall c t,
    (exists ch, lk (lg_rep (mg_lgr st)) c = Some ch /\ In t (ch_tags ch)) <-> exists m, In m D /\ tag_from m c t.
  Lemma new_tags_In : forall m ch t, lookup (lg_rep (mb_lgr m)) (ch_cp ch) = Some ch -> (In t (new_tags (mb_extensions m) (get_script m) ch) <-> tag_from m (ch_cp ch) t).
  Proof.
    intros m ch t Hc. unfold new_tags. rewrite (set_union_In _ string_eqb_iff), in_map_iff. unfold tag_from, rename_tag, with_script. split.
    - intros [[x [X1 X2]]|H]; exists ch; (split; [exact Hc|]); [left; exists x; auto|]. right. destruct (mb_extensions m) as [f|]; [|destruct H].
      destruct (ch_cp ch) as [|x [|y r]]; try destruct H. exists f, x. auto. all: exists f, x; auto.
    - intros [c0 [C1 [[x [X1 X2]]|[f [x [F1 [F2 F3]]]]]]].
      + rewrite Hc in C1. injection C1 as <-. left. exists x. auto.
      + right. rewrite F1, F2. exact F3.
  Qed.
  Theorem tags_merged : forall l st, (forall m, In m l -> tidy (mb_lgr m)) -> merge_lgr_set ord_names ord_variants l = Ok st ->
    forall c ch t, lookup (lg_rep (mg_lgr st)) c = Some ch -> (In t (ch_tags ch) <-> exists m, In m l /\ tag_from m c t).
  Proof.
    intros l st T E c ch t Hc.
    assert (H : Q_tags (isort script_leb l) st).
    { apply (merged_ind Q_tags l st); [|exact T| |exact E].
      - intros D s m s' P _ [H1 H2] _ K. split; [eapply entries_step; eauto|]. intros x u.
        assert (G : (exists y, In y (D ++ [m]) /\ tag_from y x u) <-> (exists y, In y D /\ tag_from y x u) \/ tag_from m x u).
        { split.
          - intros [y [Y1 Y2]]. apply in_app_iff in Y1. destruct Y1 as [Y1|[<-|[]]]; [left; eauto|auto].
          - intros [[y [Y1 Y2]]|Y]; [exists y|exists m]; rewrite in_app_iff; cbn; auto. }
        rewrite G, <- H2. destruct (lk (lg_rep (mb_lgr m)) x) as [c0|] eqn:Ec.
        + destruct (tk_here _ _ _ _ _ _ K x c0 Ec) as [ch' [C1 C2]]. rewrite C1. pose proof (lk_cp _ _ _ Ec) as Hcp. subst x.
          rewrite <- (new_tags_In m c0 u) by (rewrite lookup_lk; exact Ec).
          assert (X : (exists y, Some ch' = Some y /\ In u (ch_tags y)) <-> In u (ch_tags ch')) by (split; [intros [y [Y1 Y2]]; congruence|eauto]). rewrite X. clear X.
          destruct (lk (lg_rep (mg_lgr s)) (ch_cp c0)) as [ex|] eqn:Ee.
          * destruct C2 as [jw [jn [_ [_ [_ [_ [_ [_ [Ht _]]]]]]]]]. rewrite Ht. cbn [old_head ch_tags]. rewrite (perm_In _ _ Pn), (set_union_In _ string_eqb_iff), (perm_In _ _ Pn).
            split; (intros [Y|Y]; [left|right; exact Y]); [eauto|]. destruct Y as [y [Y1 Y2]]. congruence.
          * destruct C2 as [_ [_ [_ [_ [Ht _]]]]]. rewrite Ht. cbn [new_head ch_tags]. rewrite (perm_In _ _ Pn). split; [auto|]. intros [[y [Y1 _]]|Y]; [discriminate|exact Y].
        + assert (X : ~ tag_from m x u) by (intros [y [Y _]]; rewrite lookup_lk in Y; congruence).
          destruct (lk (lg_rep (mg_lgr s)) x) as [ex|] eqn:Ee.
          * destruct (tk_old _ _ _ _ _ _ K x ex Ec Ee) as [y [Y1 [_ [_ [_ [_ [Ht _]]]]]]]. rewrite Y1. split.
            -- intros [z [Z1 Z2]]. injection Z1 as <-. left. exists ex. rewrite Ht in Z2. auto.
            -- intros [[z [Z1 Z2]]|Z]; [|contradiction]. injection Z1 as <-. exists y. rewrite Ht. auto.
          * assert (Hno : lk (lg_rep (mg_lgr s')) x = None) by (apply not_none; intro Z; apply (tk_entries _ _ _ _ _ _ K) in Z; destruct Z; congruence).
            rewrite Hno. split; [intros [z [Z _]]; discriminate|]. intros [[z [Z _]]|Z]; [discriminate|contradiction].
      - split; [apply entries_start|]. intros x u. rewrite start_lk. split; [intros [z [Z _]]; discriminate|intros [m [[] _]]]. }
    destruct H as [_ H]. rewrite lookup_lk in Hc. specialize (H c t). rewrite Hc in H. split.
    - intro Hi. destruct (proj1 H) as [m [M1 M2]]; [eauto|]. exists m. split; [apply sorted_in; exact M1|exact M2].
    - intros [m [M1 M2]]. destruct (proj2 H) as [y [Y1 Y2]]; [exists m; split; [apply sorted_in; exact M1|exact M2]|]. congruence.
  Qed.
End Ord.
