(** Samples of LGRs harmonized with a root zone LGR and then merged. *)
From Coq Require Import Permutation.
From Verif Require Import Base BaseFacts CharModel RepSpec RepProofs LgrModel LgrSpec LgrProofs LgrReach LgrFinal ValidateModel ValidateSpec ValidateFinal SerialSpec SerialFinal
  HarmonizeModel HarmonizeSpec HarmonizeWitness MergeModel MergeSpec MergeFinal MergeContext MergeWitness MergeSucceedSpec MergeSucceedWitness CombineSpec CombineWitness MergeLabelSpec MergeLabelWitness HarmMergeSpec HarmMerge HarmMergeWitness.
Open Scope string_scope.
Open Scope N_scope.
Open Scope list_scope.

(** 1, 2 in the first; 3, 4 in the second; 2, 3 in the root zone. *)
Lemma apart_free : forall m c, In m [part_a; part_b] -> when_of m c = None /\ not_when_of m c = None.
Proof.
  intros m c Hm. unfold when_of, not_when_of. destruct (lookup (lg_rep (mb_lgr m)) c) as [ch|] eqn:L; [|auto].
  revert L. destruct Hm as [<-|[<-|[]]]; apply ops_free; vm_compute; reflexivity.
Qed.
Lemma apart_clear : forall f, f = when_of \/ f = not_when_of -> unambiguous f [part_a; part_b] /\ same_rules f [part_a; part_b].
Proof.
  intros f Hf. assert (N : forall m c, In m [part_a; part_b] -> f m c = None) by (intros m c Hm; destruct (apart_free m c Hm); destruct Hf as [-> | ->]; assumption).
  split; [split|].
  - intros m x c n _ Hx F. rewrite (N x c Hx) in F. discriminate.
  - intros m x rest R [r S]. destruct (perm_two _ _ _ _ _ _ R) as [_ [[-> ->]|[-> ->]]]; vm_compute in S; discriminate.
  - intros c m x n1 n2 Hm _ F. rewrite (N m c Hm) in F. discriminate.
Qed.
Lemma root_meets_all : (proper (mb_lgr part_a) /\ proper (mb_lgr part_b) /\ proper (mb_lgr part_c)) /\ (unconditional part_a /\ unconditional part_b /\ unconditional part_c) /\
  (texts_once part_a /\ texts_once part_b) /\ get_script part_a <> get_script part_b /\ unambiguous when_of [part_a; part_b] /\ unambiguous not_when_of [part_a; part_b] /\
  (letters (lg_rep (mb_lgr part_a)) /\ letters (lg_rep (mb_lgr part_b)) /\ letters (lg_rep (mb_lgr part_c))) /\ same_rules when_of [part_a; part_b] /\ same_rules not_when_of [part_a; part_b].
Proof.
  assert (P : proper (mb_lgr part_a) /\ proper (mb_lgr part_b) /\ proper (mb_lgr part_c)) by (repeat split; apply proper_of; vm_compute; reflexivity).
  destruct shared_sample as [G _]. destruct apart_sample as [G' _].
  destruct (G part_a (or_introl eq_refl)) as [_ [L1 _]]. destruct (G part_c (or_intror (or_introl eq_refl))) as [_ [L3 _]]. destruct (G' part_b (or_intror (or_introl eq_refl))) as [_ [L2 _]].
  destruct (apart_clear when_of (or_introl eq_refl)) as [U1 S1]. destruct (apart_clear not_when_of (or_intror eq_refl)) as [U2 S2].
  split; [exact P|]. split; [split; [|split]; apply letters_unconditional; assumption|]. split; [split; apply onceb_sound; vm_compute; reflexivity|].
  split; [vm_compute; discriminate|]. split; [exact U1|]. split; [exact U2|]. split; [split; [|split]; assumption|]. split; assumption.
Qed.
Definition root_merged (m1 m2 : member) (root : option lgr) : res merged :=
  match harmonize as_is (mb_lgr m1) (mb_lgr m2) root with Ok (h1, h2, _) => merge_given [with_lgr m1 h1; with_lgr m2 h2] | Raise e => Raise e end.
(** With the root zone all four collide, without it they do not. *)
Lemma root_pair_result : indices (root_merged part_a part_b (Some (mb_lgr part_c))) [[1]; [2]; [3]; [4]; [1; 4]] = Some (true, [Ok [1]; Ok [1]; Ok [1]; Ok [1]; Ok [1; 1]]) /\
  indices (root_merged part_a part_b None) [[1]; [2]; [3]; [4]; [1; 4]] = Some (true, [Ok [1]; Ok [1]; Ok [3]; Ok [3]; Ok [1; 3]]).
Proof. split; vm_compute; reflexivity. Qed.
