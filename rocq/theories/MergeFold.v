From Coq Require Import Permutation.
From Verif Require Import Base BaseFacts CharModel RepSpec RepProofs VariantProofs IterProofs VarSetSpec VarSetProofs.
From Verif Require Import RefModel RefSpec RefProofs ActionModel LgrModel LgrSpec LgrProofs LgrReach LgrInv LgrRefs LgrFinal.
From Verif Require Import ValidateModel ValidateSpec ValidateProofs PopulateModel PopulateSpec PopulateProofs.
From Verif Require Import CompareModel CompareProofs HarmonizeModel HarmonizeSpec HarmonizeProofs HarmonizeFinal MergeModel MergeProofs MergeSteps MergeLoop MergeSpec MergeRefs.
Open Scope string_scope.
Open Scope list_scope.

Section Ord.
  Variable ord_names : list string -> list string.
  Variable ord_variants : list variant -> list variant.
  Hypothesis Pn : forall l, Permutation (ord_names l) l.
  Hypothesis Pv : forall l, Permutation (ord_variants l) l.

  Definition sound (st : merged) : Prop := shape (mg_lgr st) /\ NoDup (dkeys (rm_refs (lg_refs (mg_lgr st)))).
  Notation mp_of st m := (mapping_of (mg_map st) (get_script m)).

  (** ** One member *)
  Record took (previous : list string) (st st' : merged) (m : member) (P : list (list variant * list variant)) : Prop := mkTook {
    tk_sound : sound st';
    tk_kept : kept_in (lg_refs (mg_lgr st)) (lg_refs (mg_lgr st'));
    tk_refs_from : forall k r, dget String.eqb k (rm_refs (lg_refs (mg_lgr st'))) = Some r ->
      dget String.eqb k (rm_refs (lg_refs (mg_lgr st))) = Some r \/ exists id, dget String.eqb id (rm_refs (lg_refs (mb_lgr m))) = Some r;
    tk_refs : forall id r, dget String.eqb id (rm_refs (lg_refs (mb_lgr m))) = Some r -> dget String.eqb id (mp_of st m) = None ->
      exists r', dget String.eqb (mapped (mp_of st' m) id) (rm_refs (lg_refs (mg_lgr st'))) = Some r' /\ ref_value r' = ref_value r;
    tk_texts : forall id r, dget String.eqb id (rm_refs (lg_refs (mb_lgr m))) = Some r ->
      exists k r', dget String.eqb k (rm_refs (lg_refs (mg_lgr st'))) = Some r' /\ ref_value r' = ref_value r;
    tk_maps : forall s, s <> get_script m -> mapping_of (mg_map st') s = mapping_of (mg_map st) s;
    tk_entries : forall a, lk (lg_rep (mg_lgr st')) a <> None <-> lk (lg_rep (mg_lgr st)) a <> None \/ lk (lg_rep (mb_lgr m)) a <> None;
    tk_old : forall a x, lk (lg_rep (mb_lgr m)) a = None -> lk (lg_rep (mg_lgr st)) a = Some x -> exists y, lk (lg_rep (mg_lgr st')) a = Some y /\ same_entry x y;
    tk_here : forall a ch, lk (lg_rep (mb_lgr m)) a = Some ch -> exists ch', lk (lg_rep (mg_lgr st')) a = Some ch' /\
      head_step ord_names (get_script m) previous (mb_extensions m) (mp_of st' m) (lk (lg_rep (mg_lgr st)) a) ch ch';
    tk_map : forall a b u, mapping (lg_rep (mg_lgr st')) a b u <-> mapping (lg_rep (mg_lgr st)) a b u \/
      (exists v, mapping (lg_rep (mb_lgr m)) a b v /\ fresh_at (mg_lgr st) a v /\ u = carried (get_script m) (mp_of st' m) v) \/ (v_cp u = b /\ joined P a u);
    tk_pairs : forall p, In p P -> exists a, lk (lg_rep (mb_lgr m)) a <> None /\ lk (lg_rep (mg_lgr st)) a <> None /\
      (forall v, In v (fst p) -> mapping (lg_rep (mb_lgr m)) a (v_cp v) v /\ fresh_at (mg_lgr st) a v) /\ (forall v, In v (snd p) -> mapping (lg_rep (mg_lgr st)) a (v_cp v) v) /\
      (forall v, In v (snd p) -> forall u, mapping (lg_rep (mb_lgr m)) a (v_cp v) u -> vkey u <> vkey v);
    tk_all : forall a v1 v2, mapping (lg_rep (mb_lgr m)) a (v_cp v1) v1 -> fresh_at (mg_lgr st) a v1 -> v_cp v1 <> a ->
       mapping (lg_rep (mg_lgr st)) a (v_cp v2) v2 -> (forall u, mapping (lg_rep (mb_lgr m)) a (v_cp v2) u -> vkey u <> vkey v2) -> v_cp v2 <> a ->
       exists p, In p P /\ In v1 (fst p) /\ In v2 (snd p);
    tk_rules : forall n, In n (mg_rules st') <-> In n (mg_rules st) \/ (exists r, In r (mb_rules m) /\ n = rename_rule (get_script m) r) \/
       exists a ch s k r, lk (lg_rep (mb_lgr m)) a = Some ch /\ rule_pairs (get_script m) previous (lk (lg_rep (mg_lgr st)) a) ch (s, k) /\
         In r (mb_rules m) /\ (truthy (Some k) = true -> k = r) /\ n = rename_rule s r;
    tk_actions : mg_actions st' = merge_actions (get_script m) (mb_actions m) (mg_actions st);
    tk_classes : mg_classes st' = merge_classes (get_script m) (mb_classes m) (mg_classes st);
    tk_distinct : forall p v1 v2, In p P -> In v1 (fst p) -> In v2 (snd p) -> v_cp v1 <> v_cp v2
  }.

  Lemma fresh_same : forall g g' c v, lg_rep g' = lg_rep g -> (fresh_at g' c v <-> fresh_at g c v).
  Proof. intros g g' c v H. unfold fresh_at. rewrite H. tauto. Qed.

  Lemma member_took : forall previous st m st', sound st -> tidy (mb_lgr m) -> merge_member ord_names ord_variants previous st m = Ok st' ->
    exists P, took previous st st' m P.
  Proof.
    intros previous st m st' [S Nd] T E. unfold merge_member in E. cbv zeta in E.
    destruct (expanded_ok _ T) as [e [Ee Sp]]. rewrite Ee in E. cbn [finished bind] in E.
    pose proof (spelled_expanded _ _ Sp) as X. pose proof Sp as [_ [_ [Hl [_ [Hrf _]]]]]. rewrite Hrf in E.
    apply bind_ok in E. destruct E as [[m1 maps] [E1 E]]. cbn [fst snd] in E. apply bind_ok in E. destruct E as [[g' acc'] [E2 E]]. injection E as <-.
    unfold merge_references in E1. apply bind_ok in E1. destruct E1 as [[m2 mp] [E1 E3]]. injection E3 as <- <-. cbn [fst snd] in *.
    assert (Nm : NoDup (map fst (rm_refs (lg_refs (mb_lgr m))))) by (apply reachable_refs_nodup, tidy_reachable; exact T).
    destruct (merge_refs_ok _ _ _ _ _ _ Nd Nm (fun v k => inserted_sound _ v k Nd) E1) as [A1 [A2 [A3 [A4 [A5 A6]]]]].
    assert (Hmp : mapping_of (dset String.eqb (get_script m) mp (mg_map st)) (get_script m) = mp).
    { unfold mapping_of. rewrite (dget_dset _ string_eqb_iff), String.eqb_refl. reflexivity. }
    rewrite Hmp in E2. set (g1 := set_refs (mg_lgr st) m2) in *.
    assert (S1 : shape g1) by exact S.
    destruct (merge_chars_absorbed ord_names ord_variants Pv (get_script m) previous (mb_extensions m) mp (mb_rules m) g1 e (mg_rules st) g' acc' S1 X E2) as [P [B1 B2 B3 B4 B5 B6 B7 B8 B9 B10]].
    assert (He : forall a ch, lk (lg_rep e) a = Some ch -> exists c0, lk (lg_rep (mb_lgr m)) a = Some c0 /\ ch = single c0).
    { intros a ch H. rewrite Hl in H. destruct (lk (lg_rep (mb_lgr m)) a) as [c0|]; [|discriminate]. injection H as <-. eauto. }
    assert (Hen : forall a, lk (lg_rep e) a <> None <-> lk (lg_rep (mb_lgr m)) a <> None).
    { intro a. rewrite Hl. destruct (lk (lg_rep (mb_lgr m)) a); cbn; split; congruence. }
    exists P. constructor; cbn [mg_lgr mg_map mg_rules mg_actions mg_classes]; rewrite ?Hmp.
    - split; [exact B1|]. cbn [mg_lgr]. rewrite B2. exact A1.
    - rewrite B2. exact A2.
    - rewrite B2. intros k r H. destruct (A3 k r H) as [Y|[id Y]]; [auto|]. right. exists id. apply (In_dget _ string_eqb_iff); auto.
    - intros id r H Hm. rewrite B2. apply A4; [|exact Hm]. apply (dget_In _ string_eqb_iff). exact H.
    - intros id r H. rewrite B2. apply (A6 id). apply (dget_In _ string_eqb_iff). exact H.
    - intros s Hs. unfold mapping_of. rewrite (dget_dset _ string_eqb_iff). rewrite (proj2 (String.eqb_neq _ _) Hs). reflexivity.
    - intro a. rewrite B3, Hen. reflexivity.
    - intros a x Ha Hx. apply B4; [|exact Hx]. rewrite Hl, Ha. reflexivity.
    - intros a ch Ha. apply (B5 a (single ch)). rewrite Hl, Ha. reflexivity.
    - intros a b u. rewrite B6. split; (intros [H|[[v [V1 V2]]|H]]; [auto| |auto]); right; left; exists v; (split; [apply (spelled_mapping _ _ a b v Sp); exact V1|exact V2]).
    - intros p Hp. destruct (B7 p Hp) as [a [ch [C1 [C2 [C3 [C4 C5]]]]]]. pose proof (lk_cp _ _ _ C1) as Hc. subst a. exists (ch_cp ch).
      split; [apply Hen; congruence|]. split; [exact C2|]. split; [|split; [exact C4|]].
      + intros v Hv. destruct (C3 v Hv) as [V1 V2]. split; [|exact V2]. apply (spelled_mapping _ _ _ _ v Sp). apply mapping_lk. eauto.
      + intros v Hv u Hu E. apply (C5 v Hv). apply (spelled_mapping _ _ _ _ u Sp) in Hu. apply mapping_lk in Hu. destruct Hu as [x [X1 [X2 _]]]. assert (x = ch) by congruence. subst x.
        rewrite <- E. apply in_map. exact X2.
    - intros a v1 v2 H1 H2 H3 H4 H5 H6. apply B8 with (a := a); auto.
      + apply (spelled_mapping _ _ _ _ v1 Sp). exact H1.
      + intros u Hu. apply H5. apply (spelled_mapping _ _ _ _ u Sp). exact Hu.
    - intro n. rewrite merge_rules_In, B9. split.
      + intros [[H|[a [ch [s [k [r [C1 C2]]]]]]]|[r [R1 [_ R2]]]]; [auto| |right; left; eauto]. right. right. destruct (He a ch C1) as [c0 [D1 ->]].
        exists a, c0, s, k, r. split; [exact D1|exact C2].
      + intros [H|[[r [R1 R2]]|[a [ch [s [k [r [C1 C2]]]]]]]]; [auto| |].
        * right. exists r. split; [exact R1|]. split; [discriminate|exact R2].
        * left. right. exists a, (single ch), s, k, r. split; [rewrite Hl, C1; reflexivity|exact C2].
    - reflexivity.
    - reflexivity.
    - exact B10.
  Qed.

  (** ** All members *)
  Lemma members_ind : forall (Q : list member -> merged -> Prop) l D st st',
    (forall D st m st' P, In m l -> Q D st -> sound st -> took (map get_script D) st st' m P -> Q (D ++ [m]) st') ->
    (forall m, In m l -> tidy (mb_lgr m)) -> sound st -> Q D st ->
    merge_members ord_names ord_variants (map get_script D) st l = Ok st' -> Q (D ++ l) st' /\ sound st'.
  Proof.
    intros Q. induction l as [|m l IH]; intros D st st' Hs Ht So HQ E.
    - injection E as <-. rewrite app_nil_r. auto.
    - cbn [merge_members] in E. apply bind_ok in E. destruct E as [st1 [E1 E]].
      destruct (member_took _ _ _ _ So (Ht m (or_introl eq_refl)) E1) as [P Tk].
      replace (map get_script D ++ [get_script m]) with (map get_script (D ++ [m])) in E by (rewrite map_app; reflexivity).
      replace (D ++ m :: l) with ((D ++ [m]) ++ l) by (rewrite <- app_assoc; reflexivity).
      apply IH with (st := st1); auto.
      + intros D0 st0 m0 st0' P0 Hm. apply Hs. right. exact Hm.
      + intros x Hx. apply Ht. right. exact Hx.
      + apply (tk_sound _ _ _ _ _ Tk).
      + eapply Hs; eauto. left. reflexivity.
  Qed.
  Definition start : merged := mkMerged (new_lgr None false) [] [] [] [].
  Lemma start_sound : sound start.
  Proof. split; [|constructor]. split; [apply wf_empty|]. split; [reflexivity|]. split; [reflexivity|]. intros c ch H. destruct c; discriminate. Qed.
  Lemma start_lk : forall a, lk (lg_rep (mg_lgr start)) a = None. Proof. intros [|x t]; reflexivity. Qed.
  Lemma start_map : forall a b u, ~ mapping (lg_rep (mg_lgr start)) a b u.
  Proof. intros a b u H. rewrite mapping_lk, start_lk in H. destruct H as [x [X _]]. discriminate. Qed.

  (** What is proved of the sorted list holds of the merged set. *)
  Lemma merged_ind : forall (Q : list member -> merged -> Prop) l st',
    (forall D st m st' P, In m l -> Q D st -> sound st -> took (map get_script D) st st' m P -> Q (D ++ [m]) st') ->
    (forall m, In m l -> tidy (mb_lgr m)) -> Q [] start ->
    merge_lgr_set ord_names ord_variants l = Ok st' -> Q (isort script_leb l) st' /\ sound st'.
  Proof.
    intros Q l st' Hs Ht HQ E. apply (members_ind Q (isort script_leb l) [] start st'); auto.
    - intros D st m st1 P Hm. apply Hs. apply (proj1 (isort_In script_leb m l)). exact Hm.
    - intros m Hm. apply Ht. apply (proj1 (isort_In script_leb m l)). exact Hm.
    - apply start_sound.
  Qed.
End Ord.
