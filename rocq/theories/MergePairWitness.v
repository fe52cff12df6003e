(** Samples for the exact condition of merging two members. *)
From Coq Require Import Permutation.
From Verif Require Import Base BaseFacts CharModel RepSpec RepProofs LgrModel LgrSpec LgrProofs LgrReach LgrFinal ValidateModel ValidateSpec ValidateProofs ValidateFinal SerialSpec SerialFinal
  MergeModel MergeSpec MergeFinal MergeContext MergeWitness MergeSucceedSpec MergeSucceedWitness CombineSpec CombineWitness MergeLabelWitness MergePairExact HarmMergeWitness.
Open Scope string_scope.
Open Scope N_scope.
Open Scope list_scope.

(** The variants of a sample. *)
Lemma gives_in : forall s ops a b, gives (of_ops s ops) a b -> In (a, b) (flat_map (fun ch => map (fun v => (ch_cp ch, v_cp v)) (get_variants ch)) (all_chars (lg_rep (lgr_of ops)))).
Proof.
  intros s ops a b [v [ch [X1 [X2 X3]]]]. cbn [of_ops mb_lgr] in X1. rewrite lookup_lk in X1. pose proof (lk_cp _ _ _ X1) as Ec. apply lk_in_all in X1; [|apply lgr_reachable_wf, lgr_of_reachable].
  apply in_flat_map. exists ch. split; [exact X1|]. apply in_map_iff. exists v. split; [congruence|exact X2].
Qed.
Lemma in_gives : forall s ops a b, (exists ch v, lookup (lg_rep (lgr_of ops)) a = Some ch /\ In v (get_variants ch) /\ v_cp v = b) -> gives (of_ops s ops) a b.
Proof. intros s ops a b [ch [v [H1 [H2 H3]]]]. exists v. exists ch. auto. Qed.

(** Joined: 1, 2 and 2, 3 meet at 2. *)
Lemma pair_joinable : joinable part_a part_c /\ between part_a part_c [2] [1] [3] /\ exists st, merge_lgr_set given given [part_a; part_c] = Ok st.
Proof.
  destruct pair_meets_all as (P1 & P2 & (U1 & U2) & (C1 & C2) & (O1 & O2) & Sc & A1 & A2 & _).
  assert (M : exists st, merge_lgr_set given given [part_a; part_c] = Ok st).
  { assert (H : match merge_lgr_set given given [part_a; part_c] with Ok _ => true | Raise _ => false end = true) by (vm_compute; reflexivity). destruct (merge_lgr_set given given [part_a; part_c]) as [st|]; [eauto|discriminate]. }
  pose proof (pair_exact given given (given_order _) (given_order _) part_a part_c) as Q. specialize (Q P1 P2 O1 O2 U1 U2 Sc A1 A2). apply proj1 in Q. specialize (Q M).
  split; [exact (proj2 (proj2 Q))|]. split; [|exact M]. clear Q M.
  left. split; (split; [vm_compute; discriminate|]).
  - split; [apply (in_gives "A" (full [1; 2])); eexists; eexists; split; [vm_compute; reflexivity|]; split; [left; reflexivity|reflexivity]|]. split; [|discriminate].
    intro G; apply (gives_in "C" (full [2; 3])) in G; vm_compute in G; repeat (destruct G as [G|G]; [discriminate|]); destruct G.
  - split; [apply (in_gives "C" (full [2; 3])); eexists; eexists; split; [vm_compute; reflexivity|]; split; [left; reflexivity|reflexivity]|]. split; [|discriminate].
    intro G; apply (gives_in "A" (full [1; 2])) in G; vm_compute in G; repeat (destruct G as [G|G]; [discriminate|]); destruct G.
Qed.

(** Crosswise: one relates 1, 3 and 2, 4, the other 1, 4 and 2, 3; 3 and 4 are
    to be joined because of 1 and because of 2. *)
Definition across_a : member := of_ops "A" (full [1; 3] ++ full [2; 4]).
Definition across_b : member := of_ops "B" (full [1; 4] ++ full [2; 3]).
Lemma across_stops : proper (mb_lgr across_a) /\ proper (mb_lgr across_b) /\ complete across_a /\ complete across_b /\ unconditional across_a /\ unconditional across_b /\
  between across_a across_b [1] [3] [4] /\ between across_a across_b [2] [3] [4] /\ ~ joinable across_a across_b /\ merge_lgr_set given given [across_a; across_b] = Raise (VariantAlreadyExists [3] [4]).
Proof.
  split; [apply proper_of; vm_compute; reflexivity|]. split; [apply proper_of; vm_compute; reflexivity|].
  destruct (good_ops "A" (full [1; 3] ++ full [2; 4])) as [_ [L1 C1]]; [apply proper_tidy, proper_of; vm_compute; reflexivity|apply of_letters; vm_compute; reflexivity|ops_complete|].
  destruct (good_ops "B" (full [1; 4] ++ full [2; 3])) as [_ [L2 C2]]; [apply proper_tidy, proper_of; vm_compute; reflexivity|apply of_letters; vm_compute; reflexivity|ops_complete|].
  split; [exact C1|]. split; [exact C2|]. split; [apply letters_unconditional; exact L1|]. split; [apply letters_unconditional; exact L2|].
  assert (B : between across_a across_b [1] [3] [4] /\ between across_a across_b [2] [3] [4]).
  { split; [left|right]; (split; (split; [vm_compute; discriminate|]); (split; [apply in_gives; eexists; eexists; split; [vm_compute; reflexivity|]; split; [left; reflexivity|reflexivity]|]); (split; [|discriminate]);
      intro G; apply gives_in in G; vm_compute in G; repeat (destruct G as [G|G]; [discriminate|]); destruct G). }
  destruct B as [B1 B2]. split; [exact B1|]. split; [exact B2|]. split; [|vm_compute; reflexivity].
  intro J. destruct (J [1] [3] [4] B1) as [_ [_ [_ H]]]. specialize (H [2] B2). discriminate.
Qed.
