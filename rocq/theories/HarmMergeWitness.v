(** Samples of LGRs harmonized and then merged. *)
From Coq Require Import Permutation.
From Verif Require Import Base BaseFacts CharModel RepSpec RepProofs ActionModel LabelModel LabelSpec LgrModel LgrSpec LgrProofs LgrReach LgrFinal ValidateModel ValidateSpec ValidateProofs ValidateFinal SerialSpec SerialFinal
  HarmonizeModel HarmonizeSpec HarmonizeProofs HarmonizeWitness MergeModel MergeSpec MergeFinal MergeContext MergeWitness MergeSucceedSpec MergeSucceedWitness CombineSpec CombineWitness MergeLabelSpec MergeLabelWitness MergeStopWitness HarmMergeSpec HarmMerge.
Open Scope string_scope.
Open Scope N_scope.
Open Scope list_scope.

Lemma pair_proper : proper (mb_lgr part_a) /\ proper (mb_lgr part_c).
Proof. split; apply proper_of; vm_compute; reflexivity. Qed.
Lemma pair_free : forall m c, In m [part_a; part_c] -> when_of m c = None /\ not_when_of m c = None.
Proof.
  intros m c Hm. unfold when_of, not_when_of. destruct (lookup (lg_rep (mb_lgr m)) c) as [ch|] eqn:L; [|auto].
  revert L. destruct Hm as [<-|[<-|[]]]; apply ops_free; vm_compute; reflexivity.
Qed.
Lemma pair_clear : forall f, f = when_of \/ f = not_when_of -> unambiguous f [part_a; part_c] /\ same_rules f [part_a; part_c].
Proof.
  intros f Hf. assert (N : forall m c, In m [part_a; part_c] -> f m c = None) by (intros m c Hm; destruct (pair_free m c Hm); destruct Hf as [-> | ->]; assumption).
  split; [split|].
  - intros m x c n _ Hx F. rewrite (N x c Hx) in F. discriminate.
  - intros m x rest R [r S]. destruct (perm_two _ _ _ _ _ _ R) as [_ [[-> ->]|[-> ->]]]; vm_compute in S; discriminate.
  - intros c m x n1 n2 Hm _ F. rewrite (N m c Hm) in F. discriminate.
Qed.
Lemma letters_unconditional : forall m, letters (lg_rep (mb_lgr m)) -> unconditional m.
Proof. intros m L a b v [ch [X1 [X2 X3]]]. destruct (L _ _ X1) as [_ [_ [_ V]]]. destruct (V v X2) as [V1 [V2 _]]. auto. Qed.
Lemma pair_meets_all : proper (mb_lgr part_a) /\ proper (mb_lgr part_c) /\ (unconditional part_a /\ unconditional part_c) /\ (complete part_a /\ complete part_c) /\
  (texts_once part_a /\ texts_once part_c) /\ get_script part_a <> get_script part_c /\ unambiguous when_of [part_a; part_c] /\ unambiguous not_when_of [part_a; part_c] /\
  (letters (lg_rep (mb_lgr part_a)) /\ letters (lg_rep (mb_lgr part_c))) /\ same_rules when_of [part_a; part_c] /\ same_rules not_when_of [part_a; part_c].
Proof.
  destruct pair_proper as [P1 P2]. destruct shared_sample as [G _].
  destruct (G part_a (or_introl eq_refl)) as [_ [L1 C1]]. destruct (G part_c (or_intror (or_introl eq_refl))) as [_ [L2 C2]].
  destruct (pair_clear when_of (or_introl eq_refl)) as [U1 S1]. destruct (pair_clear not_when_of (or_intror eq_refl)) as [U2 S2].
  repeat (split; [first [assumption|split; assumption|split; apply letters_unconditional; assumption|split; apply onceb_sound; vm_compute; reflexivity|vm_compute; discriminate]|]). assumption.
Qed.
Definition harm_merge (m1 m2 : member) : res merged :=
  match harmonize as_is (mb_lgr m1) (mb_lgr m2) None with Ok (h1, h2, _) => merge_given [with_lgr m1 h1; with_lgr m2 h2] | Raise e => Raise e end.
Lemma pair_result : shown_merge (harm_merge part_a part_c) [[1]; [2]; [3]] = Some (
    [Some (Some "Out-of-repertoire", [], [], None, [([1], None); ([2], None); ([3], None)]);
     Some (None, [], [], None, [([1], None); ([3], None)]);
     Some (Some "Out-of-repertoire", [], [], None, [([1], None); ([2], None); ([3], None)])], [], [], [], 0%nat) /\
  indices (harm_merge part_a part_c) [[1]; [2]; [3]; [1; 3]; [3; 2]] = Some (true, [Ok [1]; Ok [1]; Ok [1]; Ok [1; 1]; Ok [1; 1]]).
Proof. split; vm_compute; reflexivity. Qed.

(** A label of the first LGR is blocked afterwards, and valid if the LGRs are
    merged as they are. *)
Definition harm_lgrs (m1 m2 : member) : option (lgr * lgr) := match harmonize as_is (mb_lgr m1) (mb_lgr m2) None with Ok (h1, h2, _) => Some (h1, h2) | Raise _ => None end.
Lemma label_blocked : exists rm m1 m2 h1 h2 rs st q st' q' label e e' e'', proper (mb_lgr m1) /\ proper (mb_lgr m2) /\ complete m1 /\ complete m2 /\
  (forall m c, In m [m1; m2] -> when_of m c = None /\ not_when_of m c = None) /\
  harmonize as_is (mb_lgr m1) (mb_lgr m2) None = Ok (h1, h2, rs) /\ merge_given [with_lgr m1 h1; with_lgr m2 h2] = Ok st /\ rebuilt (lg_rep (mg_lgr st)) q /\
  merge_given [m1; m2] = Ok st' /\ rebuilt (lg_rep (mg_lgr st')) q' /\
  test_label_eligible rm (lg_rep (mb_lgr m1)) (mb_actions m1) label false = Ok e /\ el_disp e = Some "valid" /\
  test_label_eligible rm q' (mg_actions st') label false = Ok e' /\ el_disp e' = Some "valid" /\
  test_label_eligible rm q (mg_actions st) label false = Ok e'' /\ el_disp e'' = Some "blocked".
Proof.
  destruct pair_meets_all as (P1 & P2 & _ & (C1 & C2) & _).
  destruct (harmonized_exists as_is part_a part_c) as (h1 & h2 & rs & E); auto; [intro l; apply Permutation_refl|].
  assert (T : forall m, In m [with_lgr part_a h1; with_lgr part_c h2] -> tidy (mb_lgr m)).
  { destruct (both_proper as_is part_a part_c h1 h2 rs P1 P2 E) as [Q1 Q2]. intros m [<-|[<-|[]]]; apply proper_tidy; assumption. }
  assert (T' : forall m, In m [part_a; part_c] -> tidy (mb_lgr m)) by (intros m [<-|[<-|[]]]; apply proper_tidy; assumption).
  assert (M : seen_by part_a [1] = Some (true, Some "valid", true)) by (vm_compute; reflexivity). apply seen_is in M. destruct M as (e & M1 & _ & M3 & _).
  destruct (seen_merged_is [part_a; part_c] true (Some "valid") [1] T' ltac:(vm_compute; reflexivity) ltac:(vm_compute; reflexivity)) as (st' & q' & e' & E' & R' & H1' & _ & H3' & _).
  assert (X : harm_merge part_a part_c = merge_given [with_lgr part_a h1; with_lgr part_c h2]) by (unfold harm_merge; rewrite E; reflexivity).
  destruct (seen_merged_is [with_lgr part_a h1; with_lgr part_c h2] true (Some "blocked") [1] T) as (st & q & e'' & E'' & R'' & H1'' & _ & H3'' & _).
  { rewrite <- X. vm_compute. reflexivity. }
  { rewrite <- X. vm_compute. reflexivity. }
  exists one_first, part_a, part_c, h1, h2, rs, st, q, st', q', [1], e, e', e''. split; [exact P1|]. split; [exact P2|]. split; [exact C1|]. split; [exact C2|]. split; [exact pair_free|]. auto 15.
Qed.

(** Both relate two code points under the same context rule: harmonized, they
    cannot be merged. *)
Lemma when_stops : proper (mb_lgr when_a) /\ proper (mb_lgr when_b) /\ texts_once when_a /\ texts_once when_b /\ get_script when_a <> get_script when_b /\
  mb_lgr when_a = mb_lgr when_b /\ symmetric (lg_rep (mb_lgr when_a)) /\ transitive (lg_rep (mb_lgr when_a)) /\
  merge_given [when_a; when_b] = Raise (VariantAlreadyExists [2] [2]) /\
  exists h1 h2 rs, harmonize as_is (mb_lgr when_a) (mb_lgr when_b) None = Ok (h1, h2, rs) /\
    merge_given [with_lgr when_a h1; with_lgr when_b h2] = Raise (VariantAlreadyExists [2] [2]).
Proof.
  assert (P1 : proper (mb_lgr when_a)) by (apply proper_of; vm_compute; reflexivity).
  assert (P2 : proper (mb_lgr when_b)) by (apply proper_of; vm_compute; reflexivity).
  split; [exact P1|]. split; [exact P2|]. split; [apply onceb_sound; vm_compute; reflexivity|]. split; [apply onceb_sound; vm_compute; reflexivity|].
  split; [vm_compute; discriminate|]. split; [reflexivity|].
  assert (C : complete_ops when_ops) by ops_complete. destruct C as [C1 C2]. split; [exact C1|]. split; [exact C2|]. split; [vm_compute; reflexivity|].
  destruct (harmonized_exists as_is when_a when_b) as (h1 & h2 & rs & E); auto; [intro l; apply Permutation_refl|].
  exists h1, h2, rs. split; [exact E|]. assert (X : harm_merge when_a when_b = merge_given [with_lgr when_a h1; with_lgr when_b h2]) by (unfold harm_merge; rewrite E; reflexivity).
  rewrite <- X. vm_compute. reflexivity.
Qed.
