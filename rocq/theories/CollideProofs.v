From Coq Require Import Permutation.
From Verif Require Import Base BaseFacts AnnotateModel CollisionModel CollisionSpec CollisionProofs CollisionFinal CollideModel CollideSpec.
Open Scope string_scope.
Open Scope list_scope.
Open Scope nat_scope.

(** ** The table *)
Section Table.
  Variable index : cps -> res cps.
  Variable listing : cps -> list cps -> list (cps * option string) * res unit.
  Variables labels tlds : list cps.
  Hypothesis Hlab : NoDup labels.
  Hypothesis Htld : NoDup tlds.
  Hypothesis Hob : obedient listing.
  Notation grp i := (group (items index labels tlds) i).
  Lemma category_cat : forall es l, category_in es l = cat_in es l.
  Proof. intros es l. reflexivity. Qed.
  Lemma group_nonempty : forall i, grp i <> [] <-> exists a, has_index index labels tlds i a.
  Proof.
    intro i. split.
    - intro H. destruct (grp i) as [|e es] eqn:E; [congruence|]. exists (ce_cp e). apply (group_cps index listing). rewrite E. left. reflexivity.
    - intros [a Ha] E. apply (group_cps index listing) in Ha. rewrite E in Ha. contradiction.
  Qed.
  Theorem table_kept : forall keep quiet t missing, generate_indexes index listing labels tlds keep quiet [] = Ok (t, missing) ->
    (forall l, subject labels tlds l -> settled index l) /\
    missing = absent index labels /\ NoDup (dkeys t) /\
    (forall i, In i (dkeys t) <-> shown index labels tlds keep i) /\
    (forall i es, In (i, es) t -> NoDup (map ce_cp es) /\ (forall l, In l (map ce_cp es) <-> belongs index listing labels tlds keep i l) /\
       (forall l, kind_below index labels tlds i l (category_in es l)) /\
       (keep = true -> forall p, has_index index labels tlds i p -> snd (listing p []) = Ok tt /\
          forall x, disp_in es x p = match dget cps_eqb x (fst (listing p [])) with Some d => Some d | None => disp_in (grp i) x p end)).
  Proof.
    intros keep quiet t missing H. destruct Hob as [O1 O2]. destruct (generate_inv index listing labels tlds Hlab Htld keep quiet t missing O1 H) as [Hs [Hw [Hm [Nt Hr]]]].
    split; [exact Hs|]. split; [exact Hm|]. split; [exact Nt|].
    assert (Hcase : forall i, (~ shown index labels tlds keep i /\ dget cps_eqb i t = None) \/
      (shown index labels tlds keep i /\ exists es, dget cps_eqb i t = Some es /\ NoDup (map ce_cp es) /\ (forall l, In l (map ce_cp es) <-> belongs index listing labels tlds keep i l) /\
       (forall l, kind_below index labels tlds i l (category_in es l)) /\
       (keep = true -> forall p, has_index index labels tlds i p -> snd (listing p []) = Ok tt /\
          forall x, disp_in es x p = match dget cps_eqb x (fst (listing p [])) with Some d => Some d | None => disp_in (grp i) x p end))).
    { intro i. specialize (Hr i). pose proof (group_NoDup index listing labels tlds Hlab Htld i) as Ng.
      assert (Kg : forall l, kind_below index labels tlds i l (cat_in (grp i) l)).
      { intro l. destruct (in_dec cps_eq_dec l (map ce_cp (grp i))) as [K|K].
        - left. apply (group_cps index listing) in K. split; [exact K|]. apply (group_cat index listing labels tlds i l K).
        - right. split; [intro Q; apply K; apply (group_cps index listing); exact Q|]. unfold cat_in. apply entry_for_none in K. rewrite K. reflexivity. }
      destruct (grp i) as [|e es] eqn:Eg.
      - left. split; [|exact Hr]. intros [a [Ha _]]. apply (group_cps index listing) in Ha. rewrite Eg in Ha. contradiction.
      - assert (Ha : exists a, has_index index labels tlds i a) by (apply group_nonempty; rewrite Eg; discriminate).
        rewrite <- Eg in *. unfold outcome_for in Hr. destruct (Nat.ltb (length (grp i)) 2 && negb keep)%bool eqn:El.
        + left. split; [|exact Hr]. apply andb_prop in El. destruct El as [El Ek]. apply Nat.ltb_lt in El. apply Bool.negb_true_iff in Ek. subst keep.
          intros [a [H1 [K|[b [H2 H3]]]]]; [discriminate|]. assert (2 <= length (grp i)); [|lia]. apply (two_members index listing labels tlds Hlab Htld). exists b, a. auto.
        + right. assert (Sh : shown index labels tlds keep i).
          { apply Bool.andb_false_iff in El. destruct El as [El|El].
            - apply Nat.ltb_ge in El. apply (two_members index listing labels tlds Hlab Htld) in El. destruct El as [a [b [H1 [H2 H3]]]]. exists b. split; [exact H3|]. right. exists a. auto.
            - apply Bool.negb_false_iff in El. destruct Ha as [a Ha]. exists a. auto. }
          split; [exact Sh|]. destruct (negb keep && quiet)%bool eqn:Eq.
          * exists (grp i). split; [exact Hr|]. apply andb_prop in Eq. destruct Eq as [Eq _]. apply Bool.negb_true_iff in Eq. split; [exact Ng|]. split; [|split; [exact Kg|rewrite Eq; discriminate]].
            intro l. rewrite (group_cps index listing). split; [left; assumption|]. intros [K|[K _]]; [exact K|congruence].
          * destruct Hr as [es' [E1 E2]]. exists es'. split; [exact E2|].
            destruct (expand_primaries_ok listing (wl keep (grp i)) (grp i) (grp i) Ng) as [es2 [F1 [F2 [F3 [F4 [_ F6]]]]]].
            { intros p Hp. apply (Hw i); [|apply (group_cps index listing); apply in_map; exact Hp]. unfold required. destruct keep; [reflexivity|]. cbn [negb andb] in Eq. rewrite Eq. cbn [negb orb andb].
              cbn [negb] in El. rewrite Bool.andb_true_r in El. apply Nat.ltb_ge in El. apply Nat.leb_le. exact El. }
            rewrite E1 in F1. injection F1 as F1. subst es2. split; [exact F2|]. split; [|split].
            -- intro l. rewrite F3, (group_cps index listing). unfold belongs. split.
               ++ intros [K|[p [Hp K]]]; [left; exact K|]. apply in_map_iff in K. destruct K as [[v d] [E K]]. cbn [fst] in E. subst v. destruct keep.
                  ** right. split; [reflexivity|]. exists (ce_cp p), d. split; [apply (group_cps index listing); apply in_map; exact Hp|exact K].
                  ** left. apply (group_cps index listing). assert (Hne : wl false (grp i) <> []) by (unfold wl; rewrite Eg; discriminate).
                     destruct (O2 _ _ _ _ Hne K) as [Hi|Hi]; [exact Hi|]. subst l. apply in_map. exact Hp.
               ++ intros [K|[-> [p [d [Hp K]]]]]; [left; exact K|right]. apply (group_cps index listing) in Hp. apply in_map_iff in Hp. destruct Hp as [e' [<- Hp]]. exists e'. split; [exact Hp|].
                  change l with (fst (l, d)). apply in_map. exact K.
            -- intro l. rewrite category_cat, F4. apply Kg.
            -- intros -> p Hp. split; [exact (proj1 (Hw i p eq_refl Hp))|]. intro x. rewrite F6 by (apply (group_cps index listing); exact Hp). reflexivity. }
    split.
    - intro i. destruct (Hcase i) as [[H1 H2]|[H1 [es [H2 _]]]].
      + apply (dget_None _ cps_eqb_eq) in H2. tauto.
      + split; [auto|intros _]. apply (dget_Some_key _ cps_eqb_eq) in H2. exact H2.
    - intros i es Hi. apply (In_dget _ cps_eqb_eq) in Hi; [|exact Nt]. destruct (Hcase i) as [[H1 H2]|[H1 [es' [H2 H3]]]]; [congruence|]. rewrite H2 in Hi. injection Hi as ->. exact H3.
  Qed.
End Table.
