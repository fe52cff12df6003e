(** Harmonizing each pair of three LGRs once. *)
From Coq Require Import Permutation.
From Verif Require Import Base BaseFacts CharModel RepSpec RepProofs LgrModel LgrSpec LgrProofs LgrReach LgrFinal ValidateModel ValidateSpec ValidateProofs ValidateFinal PopulateModel PopulateSpec PopulateFinal SerialSpec SerialFinal
  HarmonizeModel HarmonizeSpec MergeModel MergeSpec MergeFinal MergeContext MergeWitness MergeSucceedSpec MergeSucceedWitness CombineSpec CombineWitness MergeLabelWitness MergePairExact HarmMergeSpec HarmMergeWitness MergePairWitness MergeTurn MergeTurnWitness MergeGlueSpec.
Open Scope string_scope.
Open Scope N_scope.
Open Scope list_scope.

Definition as_is (l : list cps) : list cps := l.
Definition one_round (a b c : lgr) (k : lgr -> lgr -> lgr -> list (list cps)) : option (list (list cps)) :=
  match harmonize as_is a b None with
  | Ok (a1, b1, _) => match harmonize as_is a1 c None with
    | Ok (a2, c1, _) => match harmonize as_is b1 c1 None with
      | Ok (b2, c2, _) => Some (k a2 b2 c2)
      | Raise _ => None end
    | Raise _ => None end
  | Raise _ => None end.
Definition first_targets (a b c : lgr) : list (list cps) := [targets_of a [1]; targets_of b [1]].
Lemma round_shown : forall a b c ta tb, one_round a b c first_targets = Some [ta; tb] -> exists a1 b1 a2 c1 b2 c2 r s t,
  harmonize as_is a b None = Ok (a1, b1, r) /\ harmonize as_is a1 c None = Ok (a2, c1, s) /\ harmonize as_is b1 c1 None = Ok (b2, c2, t) /\ targets_of a2 [1] = ta /\ targets_of b2 [1] = tb.
Proof.
  intros a b c ta tb H. unfold one_round in H. destruct (harmonize as_is a b None) as [[[a1 b1] r]|] eqn:E1; [|discriminate]. destruct (harmonize as_is a1 c None) as [[[a2 c1] s]|] eqn:E2; [|discriminate].
  destruct (harmonize as_is b1 c1 None) as [[[b2 c2] t]|] eqn:E3; [|discriminate]. injection H as H1 H2. exists a1, b1, a2, c1, b2, c2, r, s, t. auto.
Qed.
Lemma targets_iff : forall g x, has_target (lg_rep g) [1] x <-> In x (targets_of g [1]).
Proof.
  intros g x. unfold targets_of. rewrite get_char_lk by discriminate. split.
  - intros [v [ch [C1 [C2 C3]]]]. rewrite lookup_lk in C1. rewrite C1. subst x. apply in_map. exact C2.
  - destruct (lk (lg_rep g) [1]) as [ch|] eqn:E; [|intros []]. intro H. apply in_map_iff in H. destruct H as [v [V1 V2]]. exists v, ch. rewrite lookup_lk. auto.
Qed.
Lemma round_chain : one_round (mb_lgr part_a) (mb_lgr part_b) (mb_lgr part_c) first_targets = Some [[[2]; [3]]; [[1]; [2]; [3]; [4]]].
Proof. vm_compute. reflexivity. Qed.
Lemma one_round_open : exists m1 m2 m3 a1 b1 a2 c1 b2 c2 r s t, (forall m, In m [m1; m2; m3] -> proper (mb_lgr m) /\ complete m) /\ NoDup (map get_script [m1; m2; m3]) /\
  harmonize as_is (mb_lgr m1) (mb_lgr m2) None = Ok (a1, b1, r) /\ harmonize as_is a1 (mb_lgr m3) None = Ok (a2, c1, s) /\ harmonize as_is b1 c1 None = Ok (b2, c2, t) /\
  ~ same_variants [with_lgr m1 a2; with_lgr m2 b2; with_lgr m3 c2].
Proof.
  destruct (round_shown _ _ _ _ _ round_chain) as [a1 [b1 [a2 [c1 [b2 [c2 [r [s [t [E1 [E2 [E3 [T1 T2]]]]]]]]]]]]].
  exists part_a, part_b, part_c, a1, b1, a2, c1, b2, c2, r, s, t. split; [intros m Hm; destruct (chain_all m (or_introl Hm)) as [X1 [_ [_ X2]]]; auto|]. split; [apply chain_scripts|]. do 3 (split; [assumption|]).
  assert (N : ~ has_target (lg_rep a2) [1] [4]) by (rewrite targets_iff, T1; intros [X|[X|[]]]; discriminate).
  assert (Y2 : has_target (lg_rep b2) [1] [4]) by (rewrite targets_iff, T2; right; right; right; left; reflexivity).
  assert (Y1 : has_target (lg_rep a2) [1] [2]) by (rewrite targets_iff, T1; left; reflexivity).
  intro S. apply N. apply (S (with_lgr part_b b2) (with_lgr part_a a2) [1] [4]); [right; left; reflexivity|left; reflexivity|discriminate| | |exact Y2].
  - destruct Y2 as [v [ch [X _]]]. unfold has_cp. cbn [with_lgr mb_lgr]. congruence.
  - destruct Y1 as [v [ch [X _]]]. unfold has_cp. cbn [with_lgr mb_lgr]. congruence.
Qed.
