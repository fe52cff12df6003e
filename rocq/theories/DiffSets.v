(** Proofs about the comparison of LGR sets, and what follows from a report. *)
From Verif Require Import Base BaseFacts CharModel RepSpec RepProofs UtilsModel RefModel ActionModel LgrModel LgrSpec LgrInv MetaModel CompareModel CompareSpec CompareProofs DiffModel DiffSpec DiffProofs.
From Coq Require Import Permutation.
Open Scope string_scope.
Open Scope list_scope.

Lemma same_doc_trans : forall a b c, same_doc a b -> same_doc b c -> same_doc a c.
Proof.
  intros a b c [A1 [A2 [A3 [A4 [A5 [A6 [A7 A8]]]]]]] [B1 [B2 [B3 [B4 [B5 [B6 [B7 B8]]]]]]].
  repeat (split; [congruence|]). split; [intro x; rewrite B7; apply A7|].
  intros x e e' E E'. destruct (entry_of b x) as [m|] eqn:Em; [|exfalso; apply (proj2 (A7 x)); [rewrite E; discriminate|exact Em]].
  destruct (A8 x e m E Em) as [P1 [P2 [P3 [P4 [P5 [P6 P7]]]]]]. destruct (B8 x m e' Em E') as [Q1 [Q2 [Q3 [Q4 [Q5 [Q6 Q7]]]]]]. repeat split; congruence.
Qed.

(** ** The LGRs of a script *)
Definition has_lang (s : cps) (d : doc) : bool := match md_languages (doc_meta d) with t :: _ => cps_eqb t s | [] => false end.
Lemma has_lang_iff : forall s d, has_lang s d = true <-> script_of d s.
Proof.
  intros s d. unfold has_lang, script_of. destruct (md_languages (doc_meta d)) as [|t rest].
  - split; [discriminate|]. intros [r E]. discriminate.
  - rewrite cps_eqb_eq. split; [intros ->; eauto|]. intros [r E]. congruence.
Qed.
Definition of_lang (s : cps) (l : list doc) : list doc := filter (has_lang s) l.
Lemma of_lang_with : forall s l, with_script s l (of_lang s l).
Proof.
  intros s. induction l as [|d l IH]; cbn [of_lang filter]; [constructor|]. destruct (has_lang s d) eqn:E.
  - apply has_lang_iff in E. constructor; assumption.
  - constructor; [|exact IH]. intro K. apply has_lang_iff in K. congruence.
Qed.
Lemma of_lang_has : forall s l, of_lang s l <> [] <-> has_script l s.
Proof.
  intros s l. unfold has_script. split.
  - intro H. destruct (of_lang s l) as [|d r] eqn:E; [congruence|]. exists d.
    assert (K : In d (of_lang s l)) by (rewrite E; left; reflexivity). apply filter_In in K. destruct K as [K1 K2]. apply has_lang_iff in K2. auto.
  - intros [d [H1 H2]] E. assert (K : In d (of_lang s l)) by (apply filter_In; split; [exact H1|apply has_lang_iff; exact H2]). rewrite E in K. exact K.
Qed.
Definition got (s : cps) (d : dict cps (list doc)) : list doc := match dget cps_eqb s d with Some o => o | None => [] end.
Definition filled (d : dict cps (list doc)) : Prop := NoDup (dkeys d) /\ forall s, In s (dkeys d) -> got s d <> [].
Lemma get_scripts_spec : forall l d d' again, filled d -> get_scripts l d = (d', again) ->
  filled d' /\ (forall s, got s d' = got s d ++ of_lang s l) /\
  (forall s, In s again <-> (2 <= length (got s d) + length (of_lang s l) /\ 1 <= length (of_lang s l))%nat).
Proof.
  induction l as [|x l IH]; intros d d' again Hd H; cbn [get_scripts] in H.
  - injection H as <- <-. split; [exact Hd|]. split; [intro s; cbn; rewrite app_nil_r; reflexivity|]. intro s. cbn. split; [intros []|lia].
  - destruct (md_languages (doc_meta x)) as [|t rest] eqn:El.
    + destruct (IH d d' again Hd H) as [H1 [H2 H3]]. split; [exact H1|].
      assert (Hx : forall s, of_lang s (x :: l) = of_lang s l) by (intro s; unfold of_lang; cbn [filter]; unfold has_lang at 1; rewrite El; reflexivity).
      split; intro s; rewrite Hx; auto.
    + fold (got t d) in H. destruct (get_scripts l (dset cps_eqb t (got t d ++ [x]) d)) as [d1 ag] eqn:E. injection H as <- <-.
      assert (Hg : forall s, got s (dset cps_eqb t (got t d ++ [x]) d) = if cps_eqb s t then got t d ++ [x] else got s d).
      { intro s. unfold got at 1. rewrite (dget_dset _ cps_eqb_eq). destruct (cps_eqb s t); reflexivity. }
      assert (Hx : forall s, of_lang s (x :: l) = if cps_eqb s t then x :: of_lang s l else of_lang s l).
      { intro s. unfold of_lang. cbn [filter]. unfold has_lang at 1. rewrite El, (cps_eqb_sym t s). destruct (cps_eqb s t); reflexivity. }
      assert (Hd' : filled (dset cps_eqb t (got t d ++ [x]) d)).
      { split; [apply dset_NoDup; [exact cps_eqb_eq|exact (proj1 Hd)]|]. intros s Hs. rewrite Hg. destruct (cps_eqb s t) eqn:Es; [destruct (got t d); discriminate|].
        apply (proj2 Hd). apply (dset_keys_iff _ cps_eqb_eq) in Hs. destruct Hs as [Hs|Hs]; [|exact Hs]. subst. rewrite cps_eqb_refl in Es. discriminate. }
      destruct (IH _ _ _ Hd' E) as [H1 [H2 H3]].
      split; [exact H1|]. split.
      * intro s. rewrite H2, Hg, Hx. destruct (cps_eqb s t) eqn:Es; [|reflexivity]. apply cps_eqb_eq in Es. subst. rewrite <- app_assoc. reflexivity.
      * intro s. assert (Hm : dmem cps_eqb t d = true <-> got t d <> []).
        { rewrite (dmem_In _ cps_eqb_eq). split; [apply (proj2 Hd)|]. intro K. unfold got in K. destruct (dget cps_eqb t d) eqn:Eg; [|congruence].
          apply (dget_Some_key _ cps_eqb_eq) in Eg. exact Eg. }
        assert (Hiff : In s (if dmem cps_eqb t d then t :: ag else ag) <-> (s = t /\ got t d <> []) \/ In s ag).
        { destruct (dmem cps_eqb t d); cbn [In].
          - split; [intros [<-|K]; [left; split; [reflexivity|apply Hm; reflexivity]|right; exact K]|intros [[-> _]|K]; auto].
          - split; [auto|]. intros [[_ K]|K]; [apply Hm in K; discriminate|exact K]. }
        rewrite Hiff, H3, Hg, Hx. destruct (cps_eqb s t) eqn:Es.
        -- apply cps_eqb_eq in Es. subst s. rewrite app_length. cbn [length]. destruct (got t d) as [|y r] eqn:Eg; cbn [length].
           ++ split; [intros [[_ K]|K]; [congruence|lia]|]. intro K. right. lia.
           ++ split; [lia|]. intros _. left. split; [reflexivity|discriminate].
        -- assert (s <> t) by (intro; subst; rewrite cps_eqb_refl in Es; discriminate). split; [intros [[K _]|K]; [contradiction|exact K]|auto].
Qed.

Section Sets.
  Variable order : forall A : Type, list A -> list A.
  Hypothesis Hord : any_order order.
  Variable ss : bool.

  Definition stays (d d' : doc) : Prop := same_doc d d' /\ tidy (doc_lgr d').
  Lemma row_report : forall l0 l x0 x, stays x0 x -> Forall2 stays l0 l ->
    exists x' l' out, pairs_row order ss x l = (x', l', Ok out) /\ stays x0 x' /\ Forall2 stays l0 l' /\
      Forall2 (fun (p : doc * doc) z => fst z = (doc_name (fst p), doc_name (snd p)) /\ reports ss (fst p) (snd p) (snd z)) (map (fun y => (x0, y)) l0) out.
  Proof.
    induction l0 as [|y0 l0 IH]; intros l x0 x Hx Hl; inversion Hl as [|? y ? l' Hy Hl' E1 E2]; subst.
    - exists x, [], []. cbn. auto.
    - cbn [pairs_row]. destruct Hx as [Sx Tx]. destruct Hy as [Sy Ty].
      destruct (diff_report order Hord ss x y Tx Ty) as [x1 [y1 [r [H1 [H2 [H3 [H4 [H5 H6]]]]]]]]. rewrite H1.
      destruct (IH l' x0 x1) as [x2 [l2 [out [K1 [K2 [K3 K4]]]]]]; [split; [exact (same_doc_trans _ _ _ Sx H3)|exact H5]|exact Hl'|].
      rewrite K1. exists x2, (y1 :: l2), ((doc_name x, doc_name y, r) :: out). split; [reflexivity|]. split; [exact K2|].
      split; [constructor; [split; [exact (same_doc_trans _ _ _ Sy H4)|exact H6]|exact K3]|].
      constructor; [|exact K4]. cbn [fst snd]. split; [rewrite (proj1 Sx), (proj1 Sy); reflexivity|]. exact (reports_same _ _ _ _ _ _ Sx Sy H2).
  Qed.
  Lemma table_report : forall l1 l20 l2, Forall (fun d => tidy (doc_lgr d)) l1 -> Forall2 stays l20 l2 ->
    exists out, pairs_table order ss l1 l2 = Ok out /\ compared ss l1 l20 out.
  Proof.
    induction l1 as [|x l1 IH]; intros l20 l2 H1 H2; cbn [pairs_table].
    - exists []. split; [reflexivity|]. constructor.
    - inversion H1 as [|? ? Hx Hl]; subst. destruct (row_report l20 l2 x x (conj (same_doc_refl x) Hx) H2) as [x' [l2' [out [K1 [_ [K3 K4]]]]]]. rewrite K1.
      destruct (IH l20 l2' Hl K3) as [rest [R1 R2]]. rewrite R1. cbn [bind]. exists (out ++ rest). split; [reflexivity|].
      unfold compared. cbn [list_prod]. apply Forall2_app; [exact K4|exact R2].
  Qed.
  Lemma of_lang_tidy : forall s l, (forall d, In d l -> tidy (doc_lgr d)) -> Forall (fun d => tidy (doc_lgr d)) (of_lang s l).
  Proof. intros s l H. apply Forall_forall. intros d Hd. apply filter_In in Hd. apply H. tauto. Qed.
  Lemma stays_self : forall l, Forall (fun d => tidy (doc_lgr d)) l -> Forall2 stays l l.
  Proof. induction 1; constructor; auto. split; [apply same_doc_refl|assumption]. Qed.

  Theorem sets_diff_report : forall m1 m2 s1 s2, (forall d, In d s1 \/ In d s2 -> tidy (doc_lgr d)) ->
    exists r, diff_lgr_sets order ss m1 m2 s1 s2 = Ok r /\
      (forall s, In s (sd_again1 r) <-> exists l, with_script s s1 l /\ (2 <= length l)%nat) /\
      (forall s, In s (sd_again2 r) <-> exists l, with_script s s2 l /\ (2 <= length l)%nat) /\
      lacking s1 s2 (sd_only1 r) /\ lacking s2 s1 (sd_only2 r) /\
      metadata_report false (doc_meta m1) (doc_meta m2) (sd_metadata r) /\
      NoDup (map fst (sd_scripts r)) /\ (forall s, In s (map fst (sd_scripts r)) <-> has_script s1 s /\ has_script s2 s) /\
      (forall s out, In (s, out) (sd_scripts r) -> exists l1 l2, with_script s s1 l1 /\ with_script s s2 l2 /\ compared ss l1 l2 out).
  Proof.
    intros m1 m2 s1 s2 Ht. unfold diff_lgr_sets.
    destruct (get_scripts s1 []) as [d1 a1] eqn:E1. destruct (get_scripts s2 []) as [d2 a2] eqn:E2.
    assert (F0 : filled []) by (split; [constructor|intros ? []]).
    destruct (get_scripts_spec _ _ _ _ F0 E1) as [F1 [G1 A1]]. destruct (get_scripts_spec _ _ _ _ F0 E2) as [F2 [G2 A2]].
    assert (G1' : forall s, got s d1 = of_lang s s1) by (intro s; rewrite G1; reflexivity).
    assert (G2' : forall s, got s d2 = of_lang s s2) by (intro s; rewrite G2; reflexivity).
    assert (Hk : forall d l, filled d -> (forall s, got s d = of_lang s l) -> forall s, In s (dkeys d) <-> has_script l s).
    { intros d l [_ F] G s. rewrite <- of_lang_has, <- G. split; [apply F|]. intro K. unfold got in K. destruct (dget cps_eqb s d) eqn:Eg; [|congruence].
      apply (dget_Some_key _ cps_eqb_eq) in Eg. exact Eg. }
    assert (Hw : forall s l l', with_script s l l' -> l' = of_lang s l).
    { intros s l l' H. induction H as [|d l l' H1 _ IH|d l l' H1 _ IH]; [reflexivity| |]; unfold of_lang in *; cbn [filter].
      - apply has_lang_iff in H1. rewrite H1, IH. reflexivity.
      - destruct (has_lang s d) eqn:Ed; [apply has_lang_iff in Ed; contradiction|exact IH]. }
    assert (Hmap : forall l, exists common, mapM_res (fun s => bind (pairs_table order ss (got s d1) (got s d2)) (fun ds => Ok (s, ds))) l = Ok common /\
      map fst common = l /\ forall s out, In (s, out) common -> compared ss (of_lang s s1) (of_lang s s2) out).
    { induction l as [|s l [common [K1 [K2 K3]]]]; cbn [mapM_res]; [exists []; split; [reflexivity|]; split; [reflexivity|intros ? ? []]|].
      destruct (table_report (of_lang s s1) (of_lang s s2) (of_lang s s2)) as [out [T1 T2]];
        [apply of_lang_tidy; intros; apply Ht; auto|apply stays_self, of_lang_tidy; intros; apply Ht; auto|].
      rewrite G1', G2', T1. cbn [bind]. rewrite K1. cbn [bind]. exists ((s, out) :: common). split; [reflexivity|]. cbn [map fst]. rewrite K2. split; [reflexivity|].
      intros s' out' [K|K]; [injection K as <- <-; exact T2|apply K3; exact K]. }
    assert (Hlack : forall (d d' : dict cps (list doc)) l l', filled d -> (forall s, got s d = of_lang s l) -> (forall s, In s (dkeys d) <-> has_script l s) -> (forall s, In s (dkeys d') <-> has_script l' s) ->
      lacking l l' (named_scripts d (order _ (set_diff cps_eqb (dkeys d) (dkeys d'))))).
    { intros d d' l l' F G K K'. unfold named_scripts, lacking. rewrite map_map. cbn [fst]. rewrite map_id. split; [|split].
      - apply (perm_NoDup _ (order cps) (Hord cps)), (set_diff_NoDup _ cps_eqb_eq).
      - intro s. rewrite (perm_In _ (order cps) (Hord cps)), (set_diff_In _ cps_eqb_eq), K, K'. tauto.
      - intros s names Hin. apply in_map_iff in Hin. destruct Hin as [s' [E _]]. injection E as <- <-. exists (of_lang s' l). split; [apply of_lang_with|].
        fold (got s' d). rewrite G. reflexivity. }
    destruct (Hmap (order _ (set_inter cps_eqb (dkeys d1) (dkeys d2)))) as [common [K1 [K2 K3]]].
    change (mapM_res _ _) with (mapM_res (fun s => bind (pairs_table order ss (got s d1) (got s d2)) (fun ds => Ok (s, ds))) (order _ (set_inter cps_eqb (dkeys d1) (dkeys d2)))).
    rewrite K1. cbn [bind]. eexists. split; [reflexivity|]. cbn [sd_again1 sd_again2 sd_only1 sd_only2 sd_metadata sd_scripts].
    pose proof (Hk d1 s1 F1 G1') as Hk1. pose proof (Hk d2 s2 F2 G2') as Hk2.
    split; [|split; [|split; [|split; [|split; [|split; [|split]]]]]].
    - intro s. rewrite A1. cbn [got dget length]. split.
      + intros [K _]. exists (of_lang s s1). split; [apply of_lang_with|cbn in K; exact K].
      + intros [l [H1 H2]]. apply Hw in H1. subst l. cbn. lia.
    - intro s. rewrite A2. cbn [got dget length]. split.
      + intros [K _]. exists (of_lang s s2). split; [apply of_lang_with|cbn in K; exact K].
      + intros [l [H1 H2]]. apply Hw in H1. subst l. cbn. lia.
    - apply Hlack; assumption.
    - apply Hlack; assumption.
    - apply diff_metadata_report, Hord.
    - rewrite K2. apply (perm_NoDup _ (order cps) (Hord cps)), (set_inter_NoDup _ cps_eqb_eq).
    - intro s. rewrite K2, (perm_In _ (order cps) (Hord cps)), (set_inter_In _ cps_eqb_eq), Hk1, Hk2. tauto.
    - intros s out Hin. exists (of_lang s s1), (of_lang s s2). split; [apply of_lang_with|]. split; [apply of_lang_with|apply K3; exact Hin].
  Qed.
End Sets.

(** ** The same LGR *)
Lemma same_value : forall A (a : A) s, value_report false a a s -> s = Nothing.
Proof. intros A a [|x y|x]; cbn; [reflexivity|tauto|intros [K _]; discriminate]. Qed.
Lemma same_set_said : forall A (P Q : A -> Prop) s, (forall x, P x <-> Q x) -> set_report false P Q s -> s = SNothing.
Proof.
  intros A P Q [|l1 l2|l] H; cbn; [reflexivity| |intros [K _]; discriminate]. intros [_ [_ [H1 [H2 [H3|H3]]]]].
  - destruct l1 as [|x l1]; [congruence|]. destruct (proj1 (H1 x) (or_introl eq_refl)) as [K1 K2]. apply H in K1. contradiction.
  - destruct l2 as [|x l2]; [congruence|]. destruct (proj1 (H2 x) (or_introl eq_refl)) as [K1 K2]. apply H in K1. contradiction.
Qed.
Theorem same_report : forall d r, reports false d d r ->
  ld_references r = SNothing /\ ld_repertoire r = SNothing /\ ld_common r = [] /\ ld_actions r = SNothing /\ ld_rules r = SNothing /\ ld_classes r = SNothing /\
  (ld_metadata r = None <-> md_version (doc_meta d) <> None /\ md_description (doc_meta d) <> None).
Proof.
  intros d r [H1 H2 H3 H4 H5 H6 H7 H8 H9 H10].
  split; [apply (same_set_said _ _ _ _ (fun x => iff_refl _) H2)|]. split; [apply (same_set_said _ _ _ _ (fun x => iff_refl _) H3)|].
  split; [|split; [apply (same_set_said _ _ _ _ (fun x => iff_refl _) H8)|split; [apply (same_set_said _ _ _ _ (fun x => iff_refl _) H9)|split; [apply (same_set_said _ _ _ _ (fun x => iff_refl _) H10)|]]]].
  - destruct (ld_common r) as [|[c cd] l] eqn:E; [reflexivity|]. exfalso. destruct (H5 c cd) as [a [b [[K1 K2] [K3 _]]]]; [left; reflexivity|].
    assert (a = b) by congruence. subst. destruct K3 as [K3|K3]; [discriminate|]. apply K3. repeat split; auto.
  - destruct H1 as [m [Hm [V [D [S [L [V1 [V2 [V3 V4]]]]]]]]].
    apply same_value in V1. apply same_value in V2. apply same_value in V3. apply same_value in V4.
    apply (same_set_said _ _ _ _ (fun x => iff_refl _)) in S. apply (same_set_said _ _ _ _ (fun x => iff_refl _)) in L.
    assert (HV : mf_version m = None <-> md_version (doc_meta d) <> None).
    { unfold version_report in V. destruct (md_version (doc_meta d)) as [v|].
      - split; [discriminate|]. intros _. destruct V as [x [y [K1 [K2 [[K3 _]|[_ K3]]]]]]; [exact K3|]. apply same_value in K1. apply same_value in K2. exfalso. auto.
      - rewrite V. split; [discriminate|congruence]. }
    assert (HD : mf_description m = None <-> md_description (doc_meta d) <> None).
    { unfold description_report in D. destruct (md_description (doc_meta d)) as [v|].
      - split; [discriminate|]. intros _. destruct D as [x [y [K1 [K2 [[K3 _]|[_ K3]]]]]]; [exact K3|]. apply same_value in K1. apply same_value in K2. exfalso. auto.
      - rewrite D. split; [discriminate|congruence]. }
    rewrite <- HV, <- HD. destruct m as [v de s l a b c u]. cbn [mf_version mf_description mf_scopes mf_languages mf_date mf_start mf_end mf_unicode] in *. subst.
    unfold nothing_said in Hm. destruct Hm as [[K1 K2]|[K1 K2]].
    + injection K2 as -> ->. split; auto.
    + rewrite K1. split; [discriminate|]. intros [-> ->]. exfalso. apply K2. reflexivity.
Qed.
