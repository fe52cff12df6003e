(** What each LGR is once harmonizing pairs adds nothing. *)
From Coq Require Import Permutation.
From Verif Require Import Base BaseFacts CharModel RepSpec RepProofs LgrModel LgrSpec LgrProofs LgrReach LgrInv LgrFinal.
From Verif Require Import ValidateModel ValidateSpec ValidateProofs HarmonizeModel HarmonizeSpec HarmonizeProofs HarmonizeFinal HarmonizeCopy.
From Verif Require Import SerialSpec SerialFinal MergeModel MergeSpec MergeFinal MergeContext MergeSucceedSpec MergePairExact HarmMergeSpec HarmMerge HarmRoot MergeGlueSpec MergeGlue MergeSame MergeRun.
Open Scope list_scope.

(** [m] has become [m']. *)
Definition grown (l : list member) (m m' : member) : Prop := get_script m = get_script m' /\ (forall c, has_cp m c -> has_cp m' c) /\
  forall a, has_cp m' a -> exists c, has_cp m c /\ chained (some_gives l) c a.
Lemma grown_refl : forall l m, grown l m m.
Proof. intros l m. split; [reflexivity|]. split; [auto|]. intros a H. exists a. split; [exact H|constructor]. Qed.
Lemma grown_step : forall l (x y : member) h, In x l -> In y l -> completed (lg_rep (mb_lgr x)) (lg_rep (mb_lgr y)) (lg_rep h) -> grown l x (with_lgr x h).
Proof.
  intros l x y h Hx Hy C. split; [reflexivity|]. unfold has_cp. cbn [with_lgr mb_lgr]. split; [intros c H; apply (co_entries _ _ _ C); left; exact H|].
  intros a H. apply (co_entries _ _ _ C) in H. destruct H as [H|[c [H|[[A B] H]]]]; [exists a; split; [exact H|constructor]| |].
  - exists c. split; [destruct H as [v [ch [X _]]]; congruence|]. eapply chained_forth; [exists x; split; [exact Hx|exact H]|constructor].
  - exists c. split; [exact A|]. eapply chained_forth; [exists y; split; [exact Hy|exact H]|constructor].
Qed.
Lemma run_grown : forall l l', harmonized_run l l' -> (forall m, In m l -> ready m) -> forall m', In m' l' -> exists m, In m l /\ grown l m m'.
Proof.
  intros l l' R. induction R as [l|l m1 m2 rest order h1 h2 rs l' P Po E R IH]; intros G m' Hm'; [exists m'; split; [exact Hm'|apply grown_refl]|].
  destruct (IH (pair_ready order Po l rest m1 m2 h1 h2 rs P E G) m' Hm') as [k [Hk [S [Up Dn]]]].
  destruct (pair_completed _ Po l rest m1 m2 h1 h2 rs P E G) as [K1 K2]. pose proof (in1 l rest m1 m2 P) as I1. pose proof (in2 l rest m1 m2 P) as I2.
  assert (B : exists m, In m l /\ grown l m k).
  { destruct Hk as [<-|[<-|Hk]]; [exists m1; split; [exact I1|apply (grown_step l m1 m2 h1 I1 I2 K1)]|exists m2; split; [exact I2|apply (grown_step l m2 m1 h2 I2 I1 K2)]|].
    exists k. split; [apply (in_rest l rest m1 m2 P k Hk)|apply grown_refl]. }
  destruct B as [m [Hm [S0 [Up0 Dn0]]]]. exists m. split; [exact Hm|]. split; [congruence|]. split; [auto|].
  intros a Ha. destruct (Dn a Ha) as [c [C1 C2]]. destruct (Dn0 c C1) as [d [D1 D2]]. exists d. split; [exact D1|]. eapply chained_trans; [exact D2|].
  apply (pair_chained _ Po l rest m1 m2 h1 h2 rs P E G). exact C2.
Qed.
Lemma same_script : forall l, NoDup (map get_script l) -> forall m m', In m l -> In m' l -> get_script m = get_script m' -> m = m'.
Proof.
  intros l. induction l as [|x l IH]; intros N m m' Hm Hm' S; [destruct Hm|]. cbn [map] in N. apply NoDup_cons_iff in N. destruct N as [N1 N2].
  destruct Hm as [->|Hm]; destruct Hm' as [->|Hm']; [reflexivity| | |apply IH; assumption]; exfalso; apply N1; apply in_map_iff; [exists m'|exists m]; auto.
Qed.
Theorem outcome : forall l l', (forall m, In m l -> proper (mb_lgr m) /\ texts_once m /\ MergeSpec.unconditional m /\ complete m) -> NoDup (map get_script l) ->
  harmonized_run l l' -> (forall m m', In m l' -> In m' l' -> get_script m <> get_script m' -> settled_pair m m') ->
  forall m m', In m l -> In m' l' -> get_script m = get_script m' ->
  (forall a, has_cp m' a <-> exists c, has_cp m c /\ chained (some_gives l) c a) /\
  forall a b, a <> b -> (gives m' a b <-> has_cp m' a /\ chained (some_gives l) a b).
Proof.
  intros l l' G Hn R S m m' Hm Hm' Sc. destruct (run_keeps l l' R G) as [A [B [C _]]].
  assert (Hn' : NoDup (map get_script l')) by (eapply Permutation_NoDup; [exact C|exact Hn]).
  assert (Sv : same_variants l') by (apply settled_exact; [intros x Hx; split; apply (A x Hx)|exact Hn'|exact S]).
  destruct (run_grown l l' R G m' Hm') as [k [Hk [Sk [Up Dn]]]]. assert (k = m) by (apply (same_script l Hn k m Hk Hm); congruence). subst k.
  assert (V : forall a b, a <> b -> (gives m' a b <-> has_cp m' a /\ chained (some_gives l) a b)).
  { intros a b N. split.
    - intro H. split; [destruct H as [v [ch [X _]]]; unfold has_cp; congruence|]. apply B. eapply chained_forth; [exists m'; split; [exact Hm'|exact H]|constructor].
    - intros [H1 H2]. apply B in H2. destruct (same_chained l' (fun x Hx => proj2 (proj2 (proj2 (A x Hx)))) Sv a b H2) as [X|[x [Hx X]]]; [congruence|].
      apply (Sv x m' a b Hx Hm' N); [destruct X as [v [ch [Y _]]]; unfold has_cp; congruence|exact H1|exact X]. }
  split; [|exact V]. intro a. split; [apply Dn|]. intros [c [C1 C2]]. destruct (cps_eq_dec c a) as [<-|N]; [apply Up; exact C1|].
  assert (Y : gives m' c a) by (apply V; [exact N|split; [apply Up; exact C1|exact C2]]). destruct (A m' Hm') as [_ [_ [_ [Sy _]]]]. apply (Sy _ _ Y).
Qed.
