(** Three LGRs harmonized in pairs until nothing is added. *)
From Coq Require Import Permutation.
From Verif Require Import Base BaseFacts CharModel RepSpec RepProofs LgrModel LgrSpec LgrProofs LgrReach LgrInv LgrFinal ValidateModel ValidateSpec ValidateProofs ValidateFinal PopulateModel PopulateSpec PopulateFinal SerialSpec SerialFinal
  HarmonizeModel HarmonizeSpec MergeModel MergeSpec MergeFinal MergeContext MergeWitness MergeSucceedSpec MergeSucceedWitness CombineSpec CombineWitness MergeLabelWitness MergePairExact HarmMergeSpec HarmMergeWitness MergePairWitness MergeTurn MergeTurnWitness
  MergeGlueSpec MergeFitWitness MergeSame MergeRun MergeRoundWitness.
Open Scope string_scope.
Open Scope N_scope.
Open Scope list_scope.

Definition reps_agree (q q' : repertoire) : bool :=
  forallb (fun ab => cps_eqb (fst ab) (snd ab) || negb (existsb (fun ch => cps_eqb (ch_cp ch) (fst ab)) (all_chars q')) ||
                     existsb (fun ab' => cps_eqb (fst ab') (fst ab) && cps_eqb (snd ab') (snd ab)) (all_pairs q'))%bool (all_pairs q).
Lemma reps_same : forall q q', wf_rep q -> wf_rep q' -> reps_agree q q' = true -> forall c d, c <> d -> lookup q' c <> None -> has_target q c d -> has_target q' c d.
Proof.
  intros q q' W W' H c d N Hc [v [ch [C1 [C2 C3]]]]. rewrite lookup_lk in C1.
  assert (G : In (c, d) (all_pairs q)).
  { unfold all_pairs. apply in_flat_map. exists ch. split; [eapply lk_in_all; eauto|]. apply in_map_iff. exists v. split; [|exact C2]. f_equal; [eapply lk_cp; eauto|exact C3]. }
  unfold reps_agree in H. rewrite forallb_forall in H. specialize (H _ G). cbn [fst snd] in H. apply Bool.orb_prop in H. destruct H as [H|H]; [apply Bool.orb_prop in H; destruct H as [H|H]; [apply cps_eqb_eq in H; congruence|]|].
  - exfalso. apply Bool.negb_true_iff in H. rewrite lookup_lk in Hc. destruct (lk q' c) as [x|] eqn:E; [|congruence].
    assert (X : existsb (fun ch => cps_eqb (ch_cp ch) c) (all_chars q') = true); [|congruence].
    apply existsb_exists. exists x. split; [eapply lk_in_all; eauto|]. apply cps_eqb_eq. eapply lk_cp. exact E.
  - apply existsb_exists in H. destruct H as [[a b] [H1 H2]]. cbn [fst snd] in H2. apply andb_prop in H2. destruct H2 as [E1 E2]. apply cps_eqb_eq in E1. apply cps_eqb_eq in E2. subst a b.
    unfold all_pairs in H1. apply in_flat_map in H1. destruct H1 as [x [X1 X2]]. apply in_map_iff in X2. destruct X2 as [u [X2 X3]]. injection X2 as <- <-.
    exists u, x. split; [|auto]. rewrite lookup_lk. apply in_all_chars_lk; assumption.
Qed.
Definition all_agree (l : list lgr) : bool := forallb (fun g => forallb (fun g' => reps_agree (lg_rep g) (lg_rep g')) l) l.
Definition three_steps (a b c : lgr) : option (bool * list cps) :=
  match harmonize as_is b c None with
  | Ok (b1, c1, _) => match harmonize as_is a c1 None with
    | Ok (a1, c2, _) => match harmonize as_is a1 b1 None with
      | Ok (a2, b2, _) => Some (all_agree [a2; b2; c2], targets_of a2 [1])
      | Raise _ => None end
    | Raise _ => None end
  | Raise _ => None end.
Lemma steps_run : forall m1 m2 m3 t, three_steps (mb_lgr m1) (mb_lgr m2) (mb_lgr m3) = Some (true, t) ->
  exists a b c, harmonized_run [m1; m2; m3] [with_lgr m1 a; with_lgr m2 b; with_lgr m3 c] /\ all_agree [a; b; c] = true /\ targets_of a [1] = t.
Proof.
  intros m1 m2 m3 t H. unfold three_steps in H. destruct (harmonize as_is (mb_lgr m2) (mb_lgr m3) None) as [[[b1 c1] r]|] eqn:E1; [|discriminate].
  destruct (harmonize as_is (mb_lgr m1) c1 None) as [[[a1 c2] s]|] eqn:E2; [|discriminate]. destruct (harmonize as_is a1 b1 None) as [[[a2 b2] u]|] eqn:E3; [|discriminate].
  injection H as H1 H2. exists a2, b2, c2. split; [|auto]. assert (Po : rearranges as_is) by (intro x; apply Permutation_refl).
  eapply (run_pair [m1; m2; m3] m2 m3 [m1] as_is b1 c1 r); [|exact Po|exact E1|].
  { eapply perm_trans; [apply perm_swap|]. apply perm_skip. apply perm_swap. }
  eapply (run_pair _ m1 (with_lgr m3 c1) [with_lgr m2 b1] as_is a1 c2 s); [|exact Po|exact E2|].
  { eapply perm_trans; [apply perm_skip, perm_swap|]. eapply perm_trans; [apply perm_swap|]. apply perm_skip. apply perm_swap. }
  eapply (run_pair _ (with_lgr m1 a1) (with_lgr m2 b1) [with_lgr m3 c2] as_is a2 b2 u); [apply perm_skip, perm_swap|exact Po|exact E3|]. apply run_end.
Qed.
Lemma chain_steps : three_steps (mb_lgr part_a) (mb_lgr part_b) (mb_lgr part_c) = Some (true, [[2]; [3]; [4]]).
Proof. vm_compute. reflexivity. Qed.
Lemma chain_settles : exists l', harmonized_run chain l' /\ (forall m m', In m l' -> In m' l' -> get_script m <> get_script m' -> settled_pair m m') /\ some_gives l' [1] [4] /\ ~ some_gives chain [1] [4].
Proof.
  destruct (steps_run part_a part_b part_c _ chain_steps) as [a [b [c [R [A T]]]]]. exists [with_lgr part_a a; with_lgr part_b b; with_lgr part_c c]. split; [exact R|].
  destruct (run_keeps _ _ R) as [G _]; [intros m Hm; apply chain_all; left; exact Hm|].
  assert (W : forall m, In m [with_lgr part_a a; with_lgr part_b b; with_lgr part_c c] -> wf_rep (lg_rep (mb_lgr m))) by (intros m Hm; apply lgr_reachable_wf, tidy_reachable, proper_tidy, (G m Hm)).
  assert (S : same_variants [with_lgr part_a a; with_lgr part_b b; with_lgr part_c c]).
  { intros m m' x y Hm Hm' Nxy _ Hx. apply reps_same; [apply W; exact Hm|apply W; exact Hm'| |exact Nxy|exact Hx]. unfold all_agree in A. rewrite forallb_forall in A.
    assert (I : forall z, In z [with_lgr part_a a; with_lgr part_b b; with_lgr part_c c] -> In (mb_lgr z) [a; b; c]) by (intros z [<-|[<-|[<-|[]]]]; cbn [with_lgr mb_lgr]; cbn; auto).
    specialize (A (mb_lgr m) (I m Hm)). rewrite forallb_forall in A. apply (A (mb_lgr m') (I m' Hm')). }
  split; [|split].
  - intros m m' Hm Hm' _. apply (same_settled _ (fun z Hz => conj (proj1 (G z Hz)) (proj2 (proj2 (proj2 (G z Hz))))) S m m' Hm Hm').
  - exists (with_lgr part_a a). split; [left; reflexivity|]. apply targets_iff. cbn [with_lgr mb_lgr]. rewrite T. right. right. left. reflexivity.
  - intros [m [[<-|[<-|[<-|[]]]] H]].
    + apply (pair_in "A" (full [1; 2])) in H. vm_compute in H. destruct H as [H|[H|[]]]; discriminate.
    + apply (pair_in "B" (full [3; 4])) in H. vm_compute in H. destruct H as [H|[H|[]]]; discriminate.
    + apply (pair_in "C" (full [2; 3])) in H. vm_compute in H. destruct H as [H|[H|[]]]; discriminate.
Qed.
Lemma chain_letters : forall m, In m chain -> letters (lg_rep (mb_lgr m)).
Proof. intros m [<-|[<-|[<-|[]]]]; apply of_letters; vm_compute; reflexivity. Qed.
Lemma chain_gains : exists l', gaining_run 1 chain l'.
Proof.
  assert (X : match harmonize as_is (mb_lgr part_a) (mb_lgr part_c) None with Ok (h, _, _) => targets_of h [1] | Raise _ => [] end = [[2]; [3]]) by (vm_compute; reflexivity).
  destruct (harmonize as_is (mb_lgr part_a) (mb_lgr part_c) None) as [[[h h'] rs]|] eqn:E; [|discriminate]. eexists.
  eapply (gain_pair 0 chain part_a part_c [part_b] as_is h h' rs); [apply perm_skip, perm_swap|intro x; apply Permutation_refl|exact E| |apply gain_end].
  exists [1], [3]. left. split; [apply targets_iff; rewrite X; right; left; reflexivity|].
  intro H. apply (pair_in "A" (full [1; 2])) in H. vm_compute in H. destruct H as [H|[H|[]]]; discriminate.
Qed.
