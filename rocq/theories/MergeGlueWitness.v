(** Samples for members that meet at few code points. *)
From Coq Require Import Permutation.
From Verif Require Import Base BaseFacts CharModel RepSpec RepProofs LgrModel LgrSpec LgrProofs LgrReach LgrFinal ValidateModel ValidateSpec ValidateProofs ValidateFinal PopulateModel PopulateSpec PopulateFinal SerialSpec SerialFinal
  HarmonizeSpec MergeModel MergeSpec MergeFinal MergeContext MergeWitness MergeSucceedSpec MergeSucceedWitness CombineSpec CombineWitness MergeLabelWitness MergePairExact HarmMergeWitness MergePairWitness MergeTurn MergeTurnWitness MergeGlueSpec MergeGlue.
Open Scope string_scope.
Open Scope N_scope.
Open Scope list_scope.

Lemma cp_in : forall s ops c, has_cp (of_ops s ops) c -> In c (map ch_cp (all_chars (lg_rep (lgr_of ops)))).
Proof.
  intros s ops c H. unfold has_cp in H. cbn [of_ops mb_lgr] in H. rewrite lookup_lk in H. destruct (lk (lg_rep (lgr_of ops)) c) as [ch|] eqn:E; [|congruence].
  apply in_map_iff. exists ch. split; [eapply lk_cp; eauto|eapply lk_in_all; eauto]. apply lgr_reachable_wf, lgr_of_reachable.
Qed.
Lemma chain_glued : glued chain'.
Proof.
  intros before m after E c Hc Sc. left. intros d Hd Sd _.
  assert (A : forall x, has_cp part_a x -> x = [1] \/ x = [2]) by (intros x X; apply (cp_in "A" (full [1; 2])) in X; vm_compute in X; destruct X as [<-|[<-|[]]]; auto).
  assert (B : forall x, has_cp (of_ops "B" (full [2; 3])) x -> x = [2] \/ x = [3]) by (intros x X; apply (cp_in "B" (full [2; 3])) in X; vm_compute in X; destruct X as [<-|[<-|[]]]; auto).
  assert (C : forall x, has_cp (of_ops "C" (full [3; 4])) x -> x = [3] \/ x = [4]) by (intros x X; apply (cp_in "C" (full [3; 4])) in X; vm_compute in X; destruct X as [<-|[<-|[]]]; auto).
  unfold chain' in E. destruct before as [|b1 [|b2 [|b3 before]]]; cbn [app] in E.
  - destruct Sc as [x [[] _]].
  - injection E as <- <- _. destruct Sc as [x [[<-|[]] Sc]]. destruct Sd as [y [[<-|[]] Sd]].
    destruct (A _ Sc); destruct (A _ Sd); destruct (B _ Hc); destruct (B _ Hd); congruence.
  - injection E as <- <- <- _. destruct Sc as [x [[<-|[<-|[]]] Sc]]; destruct Sd as [y [[<-|[<-|[]]] Sd]].
    + destruct (A _ Sc); destruct (C _ Hc); congruence.
    + destruct (A _ Sc); destruct (C _ Hc); congruence.
    + destruct (A _ Sd); destruct (C _ Hd); congruence.
    + destruct (B _ Sc); destruct (B _ Sd); destruct (C _ Hc); destruct (C _ Hd); congruence.
  - injection E as _ _ _ E. destruct before; discriminate.
Qed.
Lemma chain_meets : glued chain' /\ in_script_order chain' /\ NoDup (map sort_key chain') /\ unambiguous when_of chain' /\ unambiguous not_when_of chain' /\ same_rules when_of chain' /\ same_rules not_when_of chain' /\
  (forall m, In m chain' -> proper (mb_lgr m) /\ texts_once m /\ letters (lg_rep (mb_lgr m)) /\ unconditional m /\ complete m) /\ chained (some_gives chain') [1] [4].
Proof.
  destruct (chain_clear chain' when_of (or_intror eq_refl) (or_introl eq_refl)) as [U1 S1]. destruct (chain_clear chain' not_when_of (or_intror eq_refl) (or_intror eq_refl)) as [U2 S2].
  split; [exact chain_glued|]. split; [unfold chain', in_script_order; repeat constructor; vm_compute; discriminate|]. split; [vm_compute; repeat constructor; cbn; intuition discriminate|].
  split; [exact U1|]. split; [exact U2|]. split; [exact S1|]. split; [exact S2|]. split.
  - intros m Hm. destruct (chain_all m (or_intror Hm)) as [X1 [X2 [X3 X4]]]. split; [exact X1|]. split; [exact X2|]. split; [|auto]. destruct Hm as [<-|[<-|[<-|[]]]]; apply of_letters; vm_compute; reflexivity.
  - eapply chained_forth; [exists part_a; split; [left; reflexivity|]; apply (in_gives "A" (full [1; 2]) [1] [2]); eexists; eexists; split; [vm_compute; reflexivity|]; split; [left; reflexivity|reflexivity]|].
    eapply chained_forth; [exists (of_ops "B" (full [2; 3])); split; [right; left; reflexivity|]; apply (in_gives "B" (full [2; 3]) [2] [3]); eexists; eexists; split; [vm_compute; reflexivity|]; split; [left; reflexivity|reflexivity]|].
    eapply chained_forth; [exists (of_ops "C" (full [3; 4])); split; [right; right; left; reflexivity|]; apply (in_gives "C" (full [3; 4]) [3] [4]); eexists; eexists; split; [vm_compute; reflexivity|]; split; [left; reflexivity|reflexivity]|].
    constructor.
Qed.
Lemma chain_indices : indices (merge_lgr_set given given chain') [[1]; [2]; [3]; [4]; [4; 2]] = Some (true, [Ok [1]; Ok [1]; Ok [1]; Ok [1]; Ok [1; 1]]) /\
  indices (merge_lgr_set given given chain) [[1]; [4]; [2]] = Some (true, [Ok [1]; Ok [2]; Ok [1]]).
Proof. split; vm_compute; reflexivity. Qed.
(** Not joined like that, a chain may be left out. *)
Lemma chain_left_out : exists l st a b, (forall m, In m l -> proper (mb_lgr m) /\ texts_once m /\ unconditional m /\ complete m) /\ NoDup (map get_script l) /\
  merge_lgr_set given given l = Ok st /\ a <> b /\ chained (some_gives l) a b /\ ~ has_target (lg_rep (mg_lgr st)) a b.
Proof.
  destruct chain_merged as [E1 _]. apply shown_first in E1. destruct E1 as [st [M1 E1]]. exists chain, st, [1], [4].
  split; [intros m Hm; apply chain_all; left; exact Hm|]. split; [apply chain_scripts|]. split; [exact M1|]. split; [discriminate|]. split.
  - eapply chained_forth; [exists part_a; split; [left; reflexivity|]; apply (in_gives "A" (full [1; 2]) [1] [2]); eexists; eexists; split; [vm_compute; reflexivity|]; split; [left; reflexivity|reflexivity]|].
    eapply chained_forth; [exists part_c; split; [right; right; left; reflexivity|]; apply (in_gives "C" (full [2; 3]) [2] [3]); eexists; eexists; split; [vm_compute; reflexivity|]; split; [left; reflexivity|reflexivity]|].
    eapply chained_forth; [exists part_b; split; [right; left; reflexivity|]; apply (in_gives "B" (full [3; 4]) [3] [4]); eexists; eexists; split; [vm_compute; reflexivity|]; split; [left; reflexivity|reflexivity]|].
    constructor.
  - intro T. apply shown_target in T. rewrite E1 in T. destruct T as [T|[T|[]]]; discriminate.
Qed.
(** Three members with one code point in common. *)
Definition star : list member := [part_a; of_ops "B" (full [2; 3]); of_ops "C" (full [2; 4])].
Lemma star_hub : forall c, in_two star c -> c = [2].
Proof.
  assert (A : forall x, has_cp part_a x -> x = [1] \/ x = [2]) by (intros x X; apply (cp_in "A" (full [1; 2])) in X; vm_compute in X; destruct X as [<-|[<-|[]]]; auto).
  assert (B : forall x, has_cp (of_ops "B" (full [2; 3])) x -> x = [2] \/ x = [3]) by (intros x X; apply (cp_in "B" (full [2; 3])) in X; vm_compute in X; destruct X as [<-|[<-|[]]]; auto).
  assert (C : forall x, has_cp (of_ops "C" (full [2; 4])) x -> x = [2] \/ x = [4]) by (intros x X; apply (cp_in "C" (full [2; 4])) in X; vm_compute in X; destruct X as [<-|[<-|[]]]; auto).
  intros c [m1 [m2 [rest [P [H1 H2]]]]].
  assert (I1 : In m1 star) by (apply (Permutation_in _ (Permutation_sym P)); left; reflexivity). assert (I2 : In m2 star) by (apply (Permutation_in _ (Permutation_sym P)); right; left; reflexivity).
  assert (Nd : get_script m1 <> get_script m2).
  { apply (Permutation_map get_script) in P. apply Permutation_NoDup in P; [|vm_compute; repeat constructor; cbn; intuition discriminate].
    cbn [map] in P. apply NoDup_cons_iff in P. destruct P as [P _]. intro Q. apply P. left. congruence. }
  destruct I1 as [<-|[<-|[<-|[]]]]; destruct I2 as [<-|[<-|[<-|[]]]]; try (exfalso; apply Nd; reflexivity);
    (try apply A in H1; try apply B in H1; try apply C in H1; try apply A in H2; try apply B in H2; try apply C in H2; destruct H1; destruct H2; congruence).
Qed.
Lemma star_indices : indices (merge_lgr_set given given star) [[1]; [2]; [3]; [4]] = Some (true, [Ok [1]; Ok [1]; Ok [1]; Ok [1]]).
Proof. vm_compute. reflexivity. Qed.
