(** Samples for members that give the same variants to shared code points. *)
From Coq Require Import Permutation.
From Verif Require Import Base BaseFacts CharModel RepSpec RepProofs LgrModel LgrSpec LgrProofs LgrReach LgrFinal ValidateModel ValidateSpec ValidateProofs ValidateFinal PopulateModel PopulateSpec PopulateFinal SerialSpec SerialFinal
  HarmonizeSpec MergeModel MergeSpec MergeFinal MergeContext MergeWitness MergeSucceedSpec MergeSucceedWitness CombineSpec CombineWitness MergeLabelWitness MergePairExact HarmMergeWitness MergePairWitness MergeTurn MergeTurnWitness MergeGlueSpec MergeGlue MergeGlueWitness MergeFitWitness.
Open Scope string_scope.
Open Scope N_scope.
Open Scope list_scope.

(** 1, 2 in two of them, 3, 4 in two of them, 5, 6 in one. *)
Definition alike_a : list lgr_op := full [1; 2] ++ full [5; 6].
Definition alike_b : list lgr_op := full [1; 2] ++ full [3; 4].
Definition alike_c : list lgr_op := full [3; 4] ++ [lcp [7]].
Definition alike_all : list member := [of_ops "C" alike_c; of_ops "A" alike_a; of_ops "B" alike_b].
Definition pairs_agree (p p' : list lgr_op) : bool :=
  forallb (fun ab => negb (existsb (fun ch => cps_eqb (ch_cp ch) (fst ab)) (all_chars (lg_rep (lgr_of p')))) ||
                     existsb (fun ab' => cps_eqb (fst ab') (fst ab) && cps_eqb (snd ab') (snd ab)) (all_pairs (lg_rep (lgr_of p'))))%bool (all_pairs (lg_rep (lgr_of p))).
Lemma pairs_give : forall s ops a b, In (a, b) (all_pairs (lg_rep (lgr_of ops))) -> gives (of_ops s ops) a b.
Proof.
  intros s ops a b H. unfold all_pairs in H. apply in_flat_map in H. destruct H as [ch [H1 H2]]. apply in_map_iff in H2. destruct H2 as [v [H2 H3]]. injection H2 as <- <-.
  exists v, ch. split; [|auto]. cbn [of_ops mb_lgr]. rewrite lookup_lk.
  apply in_all_chars_lk; [apply lgr_reachable_wf, lgr_of_reachable|exact H1].
Qed.
Lemma pairs_same : forall s s' p p', pairs_agree p p' = true -> forall c d, has_cp (of_ops s' p') c -> gives (of_ops s p) c d -> gives (of_ops s' p') c d.
Proof.
  intros s s' p p' H c d Hc G. apply pair_in in G. apply cp_in in Hc. unfold pairs_agree in H. rewrite forallb_forall in H. specialize (H _ G). cbn [fst snd] in H. apply Bool.orb_prop in H. destruct H as [H|H].
  - exfalso. apply Bool.negb_true_iff in H. apply in_map_iff in Hc. destruct Hc as [ch [H1 H2]].
    assert (X : existsb (fun ch => cps_eqb (ch_cp ch) c) (all_chars (lg_rep (lgr_of p'))) = true); [|congruence].
    apply existsb_exists. exists ch. split; [exact H2|]. apply cps_eqb_eq. exact H1.
  - apply existsb_exists in H. destruct H as [[a b] [H1 H2]]. cbn [fst snd] in H2. apply andb_prop in H2. destruct H2 as [E1 E2]. apply cps_eqb_eq in E1. apply cps_eqb_eq in E2. subst a b. apply pairs_give. exact H1.
Qed.
Lemma alike_same : same_variants alike_all.
Proof.
  intros m m' c d Hm Hm' _ _ H' G. revert H' G. destruct Hm as [<-|[<-|[<-|[]]]]; destruct Hm' as [<-|[<-|[<-|[]]]]; apply pairs_same; vm_compute; reflexivity.
Qed.
Lemma alike_meets : NoDup (map get_script alike_all) /\ (forall m, In m alike_all -> proper (mb_lgr m) /\ texts_once m /\ letters (lg_rep (mb_lgr m)) /\ unconditional m /\ complete m) /\
  forall f, f = when_of \/ f = not_when_of -> unambiguous f alike_all /\ same_rules f alike_all.
Proof.
  split; [vm_compute; repeat constructor; cbn; intuition discriminate|].
  assert (G : forall s ops, proper (lgr_of ops) -> texts_once (of_ops s ops) -> letters (lg_rep (lgr_of ops)) -> complete_ops ops ->
    proper (mb_lgr (of_ops s ops)) /\ texts_once (of_ops s ops) /\ letters (lg_rep (mb_lgr (of_ops s ops))) /\ unconditional (of_ops s ops) /\ complete (of_ops s ops)).
  { intros s ops A B C D. split; [exact A|]. split; [exact B|]. split; [exact C|]. split; [apply letters_unconditional; exact C|exact D]. }
  split; [intros m [<-|[<-|[<-|[]]]]; (apply G; [apply proper_of; vm_compute; reflexivity|apply onceb_sound; vm_compute; reflexivity|apply of_letters; vm_compute; reflexivity|ops_complete])|].
  assert (Fr : forall m c, In m alike_all -> when_of m c = None /\ not_when_of m c = None).
  { intros m c Hm. unfold when_of, not_when_of. destruct (lookup (lg_rep (mb_lgr m)) c) as [ch|] eqn:L; [|auto]. revert L. destruct Hm as [<-|[<-|[<-|[]]]]; apply ops_free; vm_compute; reflexivity. }
  intros f Hf. assert (N : forall m c, In m alike_all -> f m c = None) by (intros m c Hm; destruct (Fr m c Hm); destruct Hf as [-> | ->]; assumption).
  split; [split|].
  - intros m x c n _ Hx F. rewrite (N x c Hx) in F. discriminate.
  - intros m x rest R [r S]. assert (Hm : In m alike_all) by (apply (Permutation_in _ (Permutation_sym R)); left; reflexivity).
    assert (Hx : In x alike_all) by (apply (Permutation_in _ (Permutation_sym R)); right; left; reflexivity).
    assert (Nd : NoDup (map get_script (m :: x :: rest))) by (eapply Permutation_NoDup; [apply Permutation_map; exact R|]; vm_compute; repeat constructor; cbn; intuition discriminate).
    cbn [map] in Nd. apply NoDup_cons_iff in Nd. destruct Nd as [Nd _]. apply Nd. left. clear - S Hm Hx.
    destruct Hm as [<-|[<-|[<-|[]]]]; destruct Hx as [<-|[<-|[<-|[]]]]; vm_compute in S |- *; try reflexivity; discriminate.
  - intros c m x n1 n2 Hm _ F. rewrite (N m c Hm) in F. discriminate.
Qed.
Lemma alike_indices : indices (merge_lgr_set given given alike_all) [[2]; [4; 1]; [7; 6]] = Some (true, [Ok [1]; Ok [3; 1]; Ok [7; 5]]).
Proof. vm_compute. reflexivity. Qed.
