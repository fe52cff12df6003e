(** The comparison report: blocks of the labels. *)
From Coq Require Import Permutation.
From Verif Require Import Base BaseFacts AnnotateModel CollisionModel CollisionSpec CollisionProofs CollisionFinal CollisionDiff CollideModel CollideSpec CollideProofs CollideFinal CollideReport DiffRepModel DiffRepSpec.
Open Scope string_scope.
Open Scope list_scope.

Lemma goes_on_snd : forall a b, snd (goes_on a b) = Ok tt <-> snd a = Ok tt /\ snd b = Ok tt.
Proof. intros [l [[]|e]] b; cbn [goes_on snd]; [tauto|]. split; [discriminate|intros [H _]; discriminate]. Qed.
Lemma goes_on_fst : forall a b, snd a = Ok tt -> fst (goes_on a b) = fst a ++ fst b.
Proof. intros [l [[]|e]] b H; [reflexivity|discriminate]. Qed.
Lemma in_turn_snd : forall {A} (f : A -> list rline * res unit) l, snd (in_turn f l) = Ok tt <-> forall x, In x l -> snd (f x) = Ok tt.
Proof.
  intros A f l. induction l as [|x l IH]; cbn [in_turn]; [split; [intros _ x []|reflexivity]|]. rewrite goes_on_snd, IH. split.
  - intros [H1 H2] y [<-|H]; auto.
  - intro H. split; [apply H; left; reflexivity|intros y Hy; apply H; right; exact Hy].
Qed.
Lemma in_turn_fst : forall {A} (f : A -> list rline * res unit) l, snd (in_turn f l) = Ok tt -> fst (in_turn f l) = flat_map (fun x => fst (f x)) l.
Proof.
  intros A f l. induction l as [|x l IH]; intro H; [reflexivity|]. cbn [in_turn flat_map] in *. apply goes_on_snd in H. destruct H as [H1 H2]. rewrite goes_on_fst, IH by assumption. reflexivity.
Qed.

Section One.
  Variables (l : cps) (es1 es2 : list centry).
  Hypothesis N1 : NoDup (map ce_cp es1).
  Hypothesis N2 : NoDup (map ce_cp es2).

  Definition ch_list : list (category * cps * option string * option string) :=
    flat_map (fun q => match compare_labels l (snd q) (fst q) with
                       | Ok (Some (d2, d1)) => [(ce_cat (fst q), ce_cp (fst q), d2, d1)]
                       | _ => []
                       end) (same_labels es1 es2).
  Definition num_list (es es' : list centry) : list (category * cps) := map (fun e => (ce_cat e, ce_cp e)) (new_variants es es').

  Lemma changed_fst : snd (changed_lines l es1 es2) = Ok tt ->
    fst (changed_lines l es1 es2) = map (fun q => match q with (c, v, b, a) => RChanged c v b a end) ch_list.
  Proof.
    intro H. unfold changed_lines in *. rewrite in_turn_fst by exact H. unfold ch_list. clear H. induction (same_labels es1 es2) as [|q qs IH]; [reflexivity|]. cbn [flat_map]. rewrite map_app, <- IH.
    destruct (compare_labels l (snd q) (fst q)) as [[[d2 d1]|]|e]; reflexivity.
  Qed.
  Lemma disposition_spec : (snd (disposition_lines l es1 es2) = Ok tt <-> snd (changed_lines l es1 es2) = Ok tt) /\
    (snd (changed_lines l es1 es2) = Ok tt -> fst (disposition_lines l es1 es2) = or_say (fun q => match q with (c, v, b, a) => RChanged c v b a end) ch_list RNoChange).
  Proof.
    pose proof changed_fst as F. unfold disposition_lines. destruct (changed_lines l es1 es2) as [o [[]|e]]; cbn [fst snd] in F |- *.
    - specialize (F eq_refl). destruct o as [|x o]; cbn [fst snd]; (split; [tauto|]); intros _; destruct ch_list as [|q qs]; try discriminate; [reflexivity|exact F].
    - destruct o; cbn [snd fst]; (split; [tauto|]); discriminate.
  Qed.
  Lemma variant_number_spec : forall f es, (snd (variant_number l f es) = Ok tt <-> forall e, In e es -> has_disp l e = true) /\
    (snd (variant_number l f es) = Ok tt -> fst (variant_number l f es) = map (fun e => f (ce_cat e) (ce_cp e)) es).
  Proof.
    intros f es. unfold variant_number. rewrite in_turn_snd. cbn [snd]. split.
    - split; intros H e He; specialize (H e He); destruct (has_disp l e); congruence.
    - intro H. rewrite in_turn_fst by (apply in_turn_snd; exact H). clear H. induction es as [|e es IH]; [reflexivity|]. cbn [flat_map map]. rewrite IH. reflexivity.
  Qed.
  Lemma number_spec : (snd (number_lines l es1 es2) = Ok tt <-> forall e, In e (new_variants es2 es1) \/ In e (new_variants es1 es2) -> has_disp l e = true) /\
    (snd (number_lines l es1 es2) = Ok tt -> fst (number_lines l es1 es2) =
       or_say (fun x => x) (map (fun q => RAdded (fst q) (snd q)) (num_list es2 es1) ++ map (fun q => RRemoved (fst q) (snd q)) (num_list es1 es2)) RSameNumber).
  Proof.
    unfold number_lines. set (last := match new_variants es2 es1, new_variants es1 es2 with [], [] => ([RSameNumber], Ok tt) | _, _ => ([], Ok tt) end).
    assert (L : snd last = Ok tt) by (unfold last; destruct (new_variants es2 es1), (new_variants es1 es2); reflexivity).
    destruct (variant_number_spec RAdded (new_variants es2 es1)) as [A1 A2], (variant_number_spec RRemoved (new_variants es1 es2)) as [R1 R2].
    rewrite !goes_on_snd, A1, R1. split; [split; [intros [H1 [H2 _]] e [H|H]; auto|intro H; split; [|split]; auto]|].
    intros [H1 [H2 _]]. apply A1 in H1. apply R1 in H2. rewrite !goes_on_fst, A2, R2 by assumption. unfold num_list. rewrite !map_map. unfold last. cbn [fst snd].
    destruct (new_variants es2 es1) as [|x xs], (new_variants es1 es2) as [|y ys]; cbn [map app or_say fst]; rewrite ?map_id, ?app_nil_r; reflexivity.
  Qed.
  Lemma pairs_same : forall e1 e2, In (e2, e1) (same_labels es1 es2) <-> In e2 es2 /\ In e1 es1 /\ ce_cp e1 = ce_cp e2.
  Proof. exact (pairs_In l es1 es2). Qed.
  Lemma block_ok : snd (disposition_lines l es1 es2) = Ok tt /\ snd (number_lines l es1 es2) = Ok tt <->
    (forall v, In v (map ce_cp es1) -> disp_in es1 v l <> None) /\ (forall v, In v (map ce_cp es2) -> disp_in es2 v l <> None).
  Proof.
    rewrite (proj1 disposition_spec), (proj1 number_spec). unfold changed_lines. rewrite in_turn_snd.
    assert (P : (forall q, In q (same_labels es1 es2) -> snd (match compare_labels l (snd q) (fst q) with
                    | Raise e => ([], Raise e) | Ok None => ([], Ok tt) | Ok (Some (d2, d1)) => ([RChanged (ce_cat (fst q)) (ce_cp (fst q)) d2 d1], Ok tt) end) = Ok tt) <->
      forall e1 e2, In e2 es2 -> In e1 es1 -> ce_cp e1 = ce_cp e2 -> has_disp l e1 = true /\ has_disp l e2 = true).
    { split.
      - intros H e1 e2 I2 I1 E. specialize (H (e2, e1) (proj2 (pairs_same e1 e2) (conj I2 (conj I1 E)))). cbn [fst snd] in H. unfold compare_labels in H. unfold has_disp, dmem.
        destruct (dget cps_eqb l (ce_disp e1)); [|discriminate]. destruct (dget cps_eqb l (ce_disp e2)); [|discriminate]. auto.
      - intros H [e2 e1] I. apply pairs_same in I. destruct I as [I2 [I1 E]]. destruct (H e1 e2 I2 I1 E) as [H1 H2]. cbn [fst snd]. unfold compare_labels. unfold has_disp, dmem in H1, H2.
        destruct (dget cps_eqb l (ce_disp e1)) as [a|]; [|discriminate]. destruct (dget cps_eqb l (ce_disp e2)) as [b|]; [|discriminate]. destruct (ostring_eqb a b); reflexivity. }
    rewrite P. clear P. split.
    - intros [H1 H2]. split; intros v Hv.
      + destruct (in_dec cps_eq_dec v (map ce_cp es2)) as [K|K].
        * apply in_map_iff in Hv, K. destruct Hv as [e1 [E1 I1]], K as [e2 [E2 I2]]. rewrite <- E1. apply (has_disp_in l es1 e1 N1 I1). apply (H1 e1 e2 I2 I1). congruence.
        * apply in_map_iff in Hv. destruct Hv as [e1 [E1 I1]]. rewrite <- E1 in *. apply (has_disp_in l es1 e1 N1 I1). apply H2. right. apply new_variants_In. auto.
      + destruct (in_dec cps_eq_dec v (map ce_cp es1)) as [K|K].
        * apply in_map_iff in Hv, K. destruct Hv as [e2 [E2 I2]], K as [e1 [E1 I1]]. rewrite <- E2. apply (has_disp_in l es2 e2 N2 I2). apply (H1 e1 e2 I2 I1). congruence.
        * apply in_map_iff in Hv. destruct Hv as [e2 [E2 I2]]. rewrite <- E2 in *. apply (has_disp_in l es2 e2 N2 I2). apply H2. left. apply new_variants_In. auto.
    - intros [H1 H2]. split.
      + intros e1 e2 I2 I1 _. split; [apply (has_disp_in l es1 e1 N1 I1); apply H1|apply (has_disp_in l es2 e2 N2 I2); apply H2]; apply in_map; assumption.
      + intros e [I|I]; apply new_variants_In in I; destruct I as [I _]; [apply (has_disp_in l es2 e N2 I); apply H2|apply (has_disp_in l es1 e N1 I); apply H1]; apply in_map; assumption.
  Qed.
  Lemma category_at : forall es e, NoDup (map ce_cp es) -> In e es -> category_in es (ce_cp e) = ce_cat e.
  Proof. intros es e N I. unfold category_in. pose proof (entry_for_In es e N I) as E. unfold entry_for in E. rewrite E. reflexivity. Qed.

  Lemma changed_In : forall c v b a, In (c, v, b, a) ch_list <-> disp_in es1 v l = Some a /\ disp_in es2 v l = Some b /\ a <> b /\ c = category_in es2 v.
  Proof.
    intros c v b a. unfold ch_list. rewrite in_flat_map. split.
    - intros [[e2 e1] [I K]]. apply pairs_same in I. destruct I as [I2 [I1 E]]. cbn [fst snd] in K. unfold compare_labels in K.
      pose proof (disp_in_at l es1 e1 N1 I1) as V1. pose proof (disp_in_at l es2 e2 N2 I2) as V2.
      destruct (dget cps_eqb l (ce_disp e1)) as [a'|]; [|contradiction]. destruct (dget cps_eqb l (ce_disp e2)) as [b'|]; [|contradiction].
      destruct (ostring_eqb a' b') eqn:Eo; [contradiction|]. destruct K as [K|[]]. injection K as <- <- <- <-. rewrite E in V1. rewrite V1, V2. split; [reflexivity|]. split; [reflexivity|].
      split; [intro Q; subst; rewrite (proj2 (ostring_eqb_eq _ _) eq_refl) in Eo; discriminate|]. symmetry. apply category_at; assumption.
    - intros [H1 [H2 [H3 ->]]]. assert (M1 : In v (map ce_cp es1)) by (apply (disp_member l); congruence). assert (M2 : In v (map ce_cp es2)) by (apply (disp_member l); congruence).
      apply in_map_iff in M1, M2. destruct M1 as [e1 [E1 I1]], M2 as [e2 [E2 I2]]. exists (e2, e1). split; [apply pairs_same; repeat split; congruence|]. cbn [fst snd]. unfold compare_labels.
      pose proof (disp_in_at l es1 e1 N1 I1) as V1. pose proof (disp_in_at l es2 e2 N2 I2) as V2. rewrite E1 in V1. rewrite E2 in V2. rewrite <- V1, <- V2, H1, H2.
      destruct (ostring_eqb a b) eqn:Eo; [apply ostring_eqb_eq in Eo; contradiction|]. left. rewrite <- E2, (category_at es2 e2 N2 I2). reflexivity.
  Qed.
  Lemma number_In : forall es es' c v, NoDup (map ce_cp es) -> (In (c, v) (num_list es es') <-> In v (map ce_cp es) /\ ~ In v (map ce_cp es') /\ c = category_in es v).
  Proof.
    intros es es' c v N. unfold num_list. rewrite in_map_iff. split.
    - intros [e [E I]]. injection E as <- <-. apply new_variants_In in I. destruct I as [I K]. split; [apply in_map; exact I|]. split; [exact K|]. symmetry. apply category_at; assumption.
    - intros [M [K ->]]. apply in_map_iff in M. destruct M as [e [<- I]]. exists e. rewrite (category_at es e N I). split; [reflexivity|]. apply new_variants_In. auto.
  Qed.
  Lemma number_NoDup : forall es es', NoDup (map ce_cp es) -> NoDup (map snd (num_list es es')).
  Proof.
    intros es es' N. unfold num_list. rewrite map_map. cbn [snd]. unfold new_variants. induction es as [|x xs IH]; [constructor|]. cbn [map] in N. inversion N as [|? ? M1 M2]; subst. cbn [filter].
    destruct (negb _); [|apply IH; exact M2]. cbn [map]. constructor; [|apply IH; exact M2]. intro Hi. apply M1. apply in_map_iff in Hi. destruct Hi as [e [Ee Hi]]. rewrite <- Ee. apply in_map. apply filter_In in Hi. tauto.
  Qed.
  Lemma filter_one : forall x, filter (fun e1 => cps_eqb (ce_cp e1) x) es1 = [] \/ exists e, filter (fun e1 => cps_eqb (ce_cp e1) x) es1 = [e].
  Proof.
    intro x. assert (N : NoDup (map ce_cp (filter (fun e1 => cps_eqb (ce_cp e1) x) es1))).
    { clear N2. induction es1 as [|e es IH]; [constructor|]. cbn [map] in N1. inversion N1 as [|? ? M1 M2]; subst. cbn [filter]. destruct (cps_eqb (ce_cp e) x); [|apply IH; exact M2]. cbn [map]. constructor; [|apply IH; exact M2].
      intro Hi. apply M1. apply in_map_iff in Hi. destruct Hi as [e' [Ee Hi]]. rewrite <- Ee. apply in_map. apply filter_In in Hi. tauto. }
    assert (C : forall e, In e (filter (fun e1 => cps_eqb (ce_cp e1) x) es1) -> ce_cp e = x) by (intros e He; apply filter_In in He; apply cps_eqb_eq; tauto).
    destruct (filter _ es1) as [|a [|b r]]; [left; reflexivity|right; eauto|]. exfalso. cbn [map] in N. inversion N as [|? ? M1 _]; subst. apply M1. left. rewrite (C a), (C b); cbn; auto.
  Qed.
  Lemma changed_NoDup : NoDup (map (fun q => snd (fst (fst q))) ch_list).
  Proof.
    unfold ch_list, same_labels.
    assert (S : forall x, In x (map (fun q : category * cps * option string * option string => snd (fst (fst q))) ch_list) -> In x (map ce_cp es2)).
    { intros x H. apply in_map_iff in H. destruct H as [[[[c v] b] a] [<- H]]. apply changed_In in H. apply (disp_member l). cbn. destruct H as [_ [H _]]. congruence. }
    clear S. induction es2 as [|e es IH]; [constructor|]. cbn [map] in N2. inversion N2 as [|? ? M1 M2]; subst. cbn [flat_map]. rewrite flat_map_app, map_app. specialize (IH M2).
    destruct (filter_one (ce_cp e)) as [F|[e1 F]]; rewrite F; [exact IH|]. cbn [map flat_map fst snd]. rewrite app_nil_r.
    destruct (compare_labels l e1 e) as [[[d2 d1]|]|x]; [|exact IH|exact IH]. cbn [map fst snd app]. constructor; [|exact IH].
    intro K. apply M1. apply in_map_iff in K. destruct K as [q [Eq K]]. apply in_flat_map in K. destruct K as [[e2 e3] [K1 K2]]. apply (pairs_In l es1 es) in K1. destruct K1 as [K1 _]. cbn [fst snd] in K2.
    destruct (compare_labels l e3 e2) as [[[b a]|]|x]; [|contradiction|contradiction]. destruct K2 as [<-|[]]. cbn [fst snd] in Eq. rewrite <- Eq. apply in_map. exact K1.
  Qed.
End One.
