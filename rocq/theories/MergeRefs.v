From Coq Require Import Permutation.
From Verif Require Import Base BaseFacts CharModel RepSpec RepProofs VariantProofs IterProofs VarSetSpec VarSetProofs.
From Verif Require Import RefModel RefSpec RefProofs ActionModel LgrModel LgrSpec LgrProofs LgrReach LgrInv LgrRefs LgrFinal.
From Verif Require Import ValidateModel ValidateSpec ValidateProofs PopulateModel PopulateSpec PopulateProofs.
From Verif Require Import CompareModel CompareProofs HarmonizeModel HarmonizeSpec HarmonizeProofs HarmonizeFinal MergeModel MergeProofs MergeSteps MergeLoop MergeSpec.
Open Scope string_scope.
Open Scope list_scope.

Lemma rm_add_some : forall m v c id m' n, rm_add m v c id = (m', Ok n) -> dget String.eqb n (rm_refs m) = None /\
  (forall k, dget String.eqb k (rm_refs m') = if String.eqb k n then Some (mkRef v c) else dget String.eqb k (rm_refs m)) /\ (forall i, id = Some i -> n = i).
Proof.
  intros m v c id m' n H. unfold rm_add in H. destruct id as [id|].
  - unfold dmem in H. destruct (dget String.eqb id (rm_refs m)) eqn:E; [discriminate|]. destruct (negb (ref_id_ok id)); [discriminate|].
    injection H as <- <-. split; [exact E|]. split; [|congruence]. intro k. cbn [rm_refs]. apply (dget_dset _ string_eqb_iff).
  - destruct (next_free _ _ _) as [z|] eqn:E; [|discriminate]. injection H as <- <-. apply next_free_some in E. split; [apply E|]. split; [|discriminate].
    intro k. cbn [rm_refs]. apply (dget_dset _ string_eqb_iff).
Qed.

Definition kept_in (m m' : refman) : Prop := forall k r, dget String.eqb k (rm_refs m) = Some r -> dget String.eqb k (rm_refs m') = Some r.

Lemma merge_refs_ok : forall ins l m mp m' mp', NoDup (dkeys (rm_refs m)) -> NoDup (map fst l) ->
  (forall v k, dget String.eqb v ins = Some k -> exists r, dget String.eqb k (rm_refs m) = Some r /\ ref_value r = v) ->
  merge_refs ins l m mp = Ok (m', mp') ->
  NoDup (dkeys (rm_refs m')) /\ kept_in m m' /\
  (forall k r, dget String.eqb k (rm_refs m') = Some r -> dget String.eqb k (rm_refs m) = Some r \/ exists id, In (id, r) l) /\
  (forall id r, In (id, r) l -> dget String.eqb id mp = None -> exists r', dget String.eqb (mapped mp' id) (rm_refs m') = Some r' /\ ref_value r' = ref_value r) /\
  (forall id, ~ In id (map fst l) -> dget String.eqb id mp' = dget String.eqb id mp) /\
  (forall id r, In (id, r) l -> exists k r', dget String.eqb k (rm_refs m') = Some r' /\ ref_value r' = ref_value r).
Proof.
  intros ins. induction l as [|[id r] l IH]; intros m mp m' mp' Hn Hd Hi E.
  - injection E as <- <-. split; [exact Hn|]. split; [intros k r H; exact H|]. split; [auto|]. split; [intros id r []|]. split; [auto|intros id r []].
  - cbn [merge_refs] in E. cbn [map fst] in Hd. inversion Hd as [|? ? D1 D2]; subst.
    assert (Gen : forall m1 mp1, NoDup (dkeys (rm_refs m1)) -> kept_in m m1 ->
       (forall k x, dget String.eqb k (rm_refs m1) = Some x -> dget String.eqb k (rm_refs m) = Some x \/ x = r) ->
       (forall i, i <> id -> dget String.eqb i mp1 = dget String.eqb i mp) ->
       (dget String.eqb id mp = None -> exists r', dget String.eqb (mapped mp1 id) (rm_refs m1) = Some r' /\ ref_value r' = ref_value r) ->
       (exists k r', dget String.eqb k (rm_refs m1) = Some r' /\ ref_value r' = ref_value r) ->
       merge_refs ins l m1 mp1 = Ok (m', mp') ->
       NoDup (dkeys (rm_refs m')) /\ kept_in m m' /\
       (forall k x, dget String.eqb k (rm_refs m') = Some x -> dget String.eqb k (rm_refs m) = Some x \/ exists i, In (i, x) ((id, r) :: l)) /\
       (forall i x, In (i, x) ((id, r) :: l) -> dget String.eqb i mp = None -> exists r', dget String.eqb (mapped mp' i) (rm_refs m') = Some r' /\ ref_value r' = ref_value x) /\
       (forall i, ~ In i (id :: map fst l) -> dget String.eqb i mp' = dget String.eqb i mp) /\
       (forall i x, In (i, x) ((id, r) :: l) -> exists k r', dget String.eqb k (rm_refs m') = Some r' /\ ref_value r' = ref_value x)).
    { intros m1 mp1 N1 K1 B1 M1 H1 H2 E1. destruct (IH m1 mp1 m' mp' N1 D2) as [A1 [A2 [A3 [A4 [A5 A6]]]]]; [|exact E1|].
      - intros v k Hv. destruct (Hi v k Hv) as [x [X1 X2]]. exists x. auto.
      - split; [exact A1|]. split; [intros k x Hx; apply A2, K1, Hx|]. split; [|split; [|split]].
        + intros k x Hx. destruct (A3 k x Hx) as [Y|[i Y]]; [|right; exists i; right; exact Y]. destruct (B1 k x Y) as [Z| ->]; [auto|]. right. exists id. left. reflexivity.
        + intros i x [X|X] Hm.
          * injection X as <- <-. destruct (H1 Hm) as [r' [R1 R2]]. exists r'. split; [|exact R2]. unfold mapped in *. rewrite (A5 id D1). apply A2. exact R1.
          * apply A4; [exact X|]. rewrite M1; [exact Hm|]. intro Y. subst i. apply D1. apply in_map_iff. exists (id, x). auto.
        + intros i Hni. rewrite A5 by (intro Y; apply Hni; right; exact Y). apply M1. intro Y. apply Hni. left. auto.
        + intros i x [X|X]; [|apply (A6 i x X)]. injection X as <- <-. destruct H2 as [k [r' [R1 R2]]]. exists k, r'. split; [apply A2; exact R1|exact R2]. }
    destruct (dget String.eqb (ref_value r) ins) as [k|] eqn:Ei.
    + destruct (Hi _ _ Ei) as [x [X1 X2]]. apply (Gen m _) in E; auto.
      * intros k0 r0 H. exact H.
      * intros i Hne. destruct (String.eqb id k); [reflexivity|]. rewrite (dget_dset _ string_eqb_iff). rewrite (proj2 (String.eqb_neq i id) Hne). reflexivity.
      * intro Hm. exists x. split; [|exact X2]. unfold mapped. destruct (String.eqb id k) eqn:Ek.
        -- apply String.eqb_eq in Ek. subst k. rewrite Hm. exact X1.
        -- rewrite (dget_dset _ string_eqb_iff), String.eqb_refl. exact X1.
      * exists k, x. auto.
    + assert (Hr : mkRef (ref_value r) (ref_comment r) = r) by (destruct r; reflexivity).
      destruct (dmem String.eqb id (rm_refs m)) eqn:Em.
      * destruct (rm_add m (ref_value r) (ref_comment r) None) as [m1 [n|e]] eqn:Ea; [|discriminate]. destruct (rm_add_some _ _ _ _ _ _ Ea) as [F1 [F2 _]]. rewrite Hr in F2.
        apply (Gen m1 _) in E; auto.
        -- eapply rm_add_nd; eauto.
        -- intros k x Hx. rewrite F2. destruct (String.eqb k n) eqn:Ek; [|exact Hx]. apply String.eqb_eq in Ek. congruence.
        -- intros k x Hx. rewrite F2 in Hx. destruct (String.eqb k n); [right; congruence|auto].
        -- intros i Hne. rewrite (dget_dset _ string_eqb_iff). rewrite (proj2 (String.eqb_neq i id) Hne). reflexivity.
        -- intros _. exists r. unfold mapped. rewrite (dget_dset _ string_eqb_iff), String.eqb_refl, F2, String.eqb_refl. auto.
        -- exists n, r. rewrite F2, String.eqb_refl. auto.
      * destruct (rm_add m (ref_value r) (ref_comment r) (Some id)) as [m1 [n|e]] eqn:Ea; [|discriminate]. destruct (rm_add_some _ _ _ _ _ _ Ea) as [F1 [F2 F3]]. rewrite Hr in F2.
        rewrite (F3 id eq_refl) in *. apply (Gen m1 _) in E; auto.
        -- eapply rm_add_nd; eauto.
        -- intros k x Hx. rewrite F2. destruct (String.eqb k id) eqn:Ek; [|exact Hx]. apply String.eqb_eq in Ek. congruence.
        -- intros k x Hx. rewrite F2 in Hx. destruct (String.eqb k id); [right; congruence|auto].
        -- intro Hm. exists r. unfold mapped. rewrite Hm, F2, String.eqb_refl. auto.
        -- exists id, r. rewrite F2, String.eqb_refl. auto.
Qed.

Lemma inserted_sound : forall m v k, NoDup (dkeys (rm_refs m)) -> dget String.eqb v (inserted m) = Some k ->
  exists r, dget String.eqb k (rm_refs m) = Some r /\ ref_value r = v.
Proof.
  intros m v k Hn H. unfold inserted in H.
  assert (G : forall l d, dget String.eqb v (fold_left (fun d kv => dset String.eqb (ref_value (snd kv)) (fst kv) d) l d) = Some k ->
            dget String.eqb v d = Some k \/ exists r, In (k, r) l /\ ref_value r = v).
  { induction l as [|[i r] l IH]; intros d Hd; [auto|]. cbn [fold_left] in Hd. destruct (IH _ Hd) as [X|[x [X1 X2]]]; [|right; exists x; split; [right; exact X1|exact X2]].
    cbn [fst snd] in X. rewrite (dget_dset _ string_eqb_iff) in X. destruct (String.eqb v (ref_value r)) eqn:E; [|auto]. apply String.eqb_eq in E. injection X as ->.
    right. exists r. split; [left; reflexivity|auto]. }
  destruct (G _ _ H) as [X|[r [R1 R2]]]; [discriminate|]. exists r. split; [|exact R2]. apply (In_dget _ string_eqb_iff); auto.
Qed.

Lemma reachable_refs_nodup : forall g, lgr_reachable g -> NoDup (dkeys (rm_refs (lg_refs g))).
Proof.
  intros g [db [al [ops ->]]]. assert (G : forall ops g, NoDup (dkeys (rm_refs (lg_refs g))) -> NoDup (dkeys (rm_refs (lg_refs (fst (lgr_run g ops)))))).
  { clear. induction ops as [|o ops IH]; intros g Hn; [exact Hn|]. cbn [lgr_run]. pose proof (step_refs g o) as Hs.
    assert (Hn1 : NoDup (dkeys (rm_refs (lg_refs (fst (lgr_step g o)))))).
    { destruct o as [c cm rf tg w nw vr ov fo|c|f l cm rf tg w nw vr ov fo|f l|f l| |c v ty w nw cm rf vr ov fo|c v w nw|l cm rf tg|v c id|ref|t|]; try (rewrite Hs; exact Hn).
      - unfold lgr_step, lgr_add_reference. destruct (rm_add (lg_refs g) v c id) as [m' x] eqn:E. cbn [fst]. cbn [set_refs lg_refs]. eapply rm_add_nd; eauto.
      - unfold lgr_step, lgr_del_reference. cbn [set_rep lg_refs]. destruct (rm_del_cases (lg_refs g) ref Hn) as [[_ H]|[_ [m' [H [H1 H2]]]]]; rewrite H; cbn; [exact Hn|exact H1]. }
    destruct (lgr_step g o) as [g1 x] eqn:E1. cbn [fst] in Hn1. specialize (IH g1 Hn1). destruct (lgr_run g1 ops). exact IH. }
  apply G. constructor.
Qed.
