(** Samples for members that meet at related code points. *)
From Coq Require Import Permutation.
From Verif Require Import Base BaseFacts CharModel RepSpec RepProofs LgrModel LgrSpec LgrProofs LgrReach LgrFinal ValidateModel ValidateSpec ValidateProofs ValidateFinal PopulateModel PopulateSpec PopulateFinal SerialSpec SerialFinal
  HarmonizeSpec MergeModel MergeSpec MergeFinal MergeContext MergeWitness MergeSucceedSpec MergeSucceedWitness CombineSpec CombineWitness MergeLabelWitness MergePairExact HarmMergeWitness MergePairWitness MergeTurn MergeTurnWitness MergeGlueSpec MergeGlue MergeGlueWitness MergeFit MergeFitPair.
Open Scope string_scope.
Open Scope N_scope.
Open Scope list_scope.

(** The second has the code points 1 and 2 of the first, not as variants. *)
Definition apart_ops : list lgr_op := lcp [2] :: full [1; 3].
Definition apart : list member := [part_a; of_ops "B" apart_ops].
Definition all_pairs (q : repertoire) : list (cps * cps) := flat_map (fun ch => map (fun v => (ch_cp ch, v_cp v)) (get_variants ch)) (all_chars q).
Lemma pair_in : forall s ops a b, gives (of_ops s ops) a b -> In (a, b) (all_pairs (lg_rep (lgr_of ops))).
Proof.
  intros s ops a b [v [ch [C1 [C2 C3]]]]. cbn [of_ops mb_lgr] in C1. rewrite lookup_lk in C1. assert (Wf := lgr_reachable_wf _ (lgr_of_reachable ops)).
  unfold all_pairs. apply in_flat_map. exists ch. split; [eapply lk_in_all; eauto|]. apply in_map_iff. exists v. split; [|exact C2]. f_equal; [eapply lk_cp; eauto|exact C3].
Qed.
Lemma a_gives : forall x y, gives part_a x y -> (x = [1] \/ x = [2]) /\ (y = [1] \/ y = [2]).
Proof. intros x y H. apply (pair_in "A" (full [1; 2])) in H. vm_compute in H. destruct H as [H|[H|[]]]; injection H as <- <-; auto. Qed.
Lemma b_gives : forall x y, gives (of_ops "B" apart_ops) x y -> (x = [1] /\ y = [3]) \/ (x = [3] /\ y = [1]).
Proof. intros x y H. apply pair_in in H. vm_compute in H. destruct H as [H|[H|[]]]; injection H as <- <-; auto. Qed.
Lemma a_chained : forall x y, chained (some_gives [part_a]) x y -> x = [1] \/ x = [2] -> y = [1] \/ y = [2].
Proof.
  intros x y H. induction H as [x|x y w S X IH|x y w S X IH]; intro I; [exact I| |]; apply IH; destruct S as [m [[<-|[]] S]]; apply (a_gives _ _ S).
Qed.
Lemma apart_fitted : fitted apart.
Proof.
  intros before m after E c d N Sc Hc Sd Hd. unfold apart in E. destruct before as [|b1 [|b2 before]]; cbn [app] in E.
  - destruct Sc as [x [[] _]].
  - injection E as <- <- _.
    assert (A : forall x, some_has [part_a] x -> x = [1] \/ x = [2]) by (intros x [y [[<-|[]] X]]; apply (cp_in "A" (full [1; 2])) in X; vm_compute in X; destruct X as [<-|[<-|[]]]; auto).
    split; [|split].
    + intros _ Y. destruct (b_gives _ _ Y) as [[_ ->]|[-> _]]; [destruct (A _ Sd)|destruct (A _ Sc)]; discriminate.
    + intros _ _ [[x [X _]] [y [Y _]]]. destruct (b_gives _ _ X) as [[-> _]|[-> _]]; [|destruct (A _ Sc); discriminate]. destruct (b_gives _ _ Y) as [[-> _]|[-> _]]; [congruence|destruct (A _ Sd); discriminate].
    + intros Y. destruct (b_gives _ _ Y) as [[_ ->]|[-> _]]; [destruct (A _ Sd)|destruct (A _ Sc)]; discriminate.
  - injection E as _ _ E. destruct before; discriminate.
Qed.
Lemma a_one_two : chained (some_gives [part_a]) [1] [2].
Proof. eapply chained_forth; [exists part_a; split; [left; reflexivity|]; apply (in_gives "A" (full [1; 2]) [1] [2]); eexists; eexists; split; [vm_compute; reflexivity|]; split; [left; reflexivity|reflexivity]|constructor]. Qed.
Lemma apart_not_glued : ~ glued apart.
Proof.
  intro G. destruct (G [part_a] (of_ops "B" apart_ops) [] eq_refl [1]) as [A|[O|O]].
  - vm_compute. discriminate.
  - exists part_a. split; [left; reflexivity|vm_compute; discriminate].
  - specialize (A [2]). assert (X : [2] = [1]); [|discriminate]. apply A; [vm_compute; discriminate|exists part_a; split; [left; reflexivity|vm_compute; discriminate]|right; exact a_one_two].
  - assert (Y : gives (of_ops "B" apart_ops) [1] [3]) by (eexists; eexists; split; [vm_compute; reflexivity|]; split; [left; reflexivity|reflexivity]).
    apply O in Y. destruct (a_chained _ _ Y (or_introl eq_refl)); discriminate.
  - destruct (O [2] a_one_two) as [X|X]; [discriminate|]. destruct (b_gives _ _ X) as [[_ X']|[X' _]]; discriminate.
Qed.
Lemma chain_not_fitted : ~ fitted chain.
Proof.
  intro F. destruct (F [part_a; part_b] part_c [] eq_refl [2] [3]) as [_ [_ F3]]; try discriminate; try (vm_compute; discriminate).
  - exists part_a. split; [left; reflexivity|vm_compute; discriminate].
  - exists part_b. split; [right; left; reflexivity|vm_compute; discriminate].
  - assert (K : forall x y, chained (some_gives [part_a; part_b]) x y -> x = [1] \/ x = [2] -> y = [1] \/ y = [2]).
    { assert (G : forall x y, some_gives [part_a; part_b] x y -> (x = [1] \/ x = [2] <-> y = [1] \/ y = [2])).
      { intros x y [m [[<-|[<-|[]]] S]]; [destruct (a_gives _ _ S); tauto|]. apply (pair_in "B" (full [3; 4])) in S. vm_compute in S.
        destruct S as [S|[S|[]]]; injection S as <- <-; split; intros [?|?]; discriminate. }
      intros x y H. induction H as [x|x y w S X IH|x y w S X IH]; intro I; [exact I| |]; apply IH; apply G in S; tauto. }
    assert (N : forall x y, gives part_c x y -> (x = [2] /\ y = [3]) \/ (x = [3] /\ y = [2])).
    { intros x y H. apply (pair_in "C" (full [2; 3])) in H. vm_compute in H. destruct H as [H|[H|[]]]; injection H as <- <-; auto. }
    apply F3.
    + apply (in_gives "C" (full [2; 3]) [2] [3]). eexists; eexists; split; [vm_compute; reflexivity|]; split; [left; reflexivity|reflexivity].
    + intro X. destruct (K _ _ X (or_intror eq_refl)); discriminate.
    + split.
      * exists [1]. split; [|split; [discriminate|]].
        { eapply chained_forth; [exists part_a; split; [left; reflexivity|]; apply (in_gives "A" (full [1; 2]) [2] [1]); eexists; eexists; split; [vm_compute; reflexivity|]; split; [left; reflexivity|reflexivity]|constructor]. }
        intro X. destruct (N _ _ X) as [[_ Y]|[Y _]]; discriminate.
      * exists [4]. split; [|split; [discriminate|]].
        { eapply chained_forth; [exists part_b; split; [right; left; reflexivity|]; apply (in_gives "B" (full [3; 4]) [3] [4]); eexists; eexists; split; [vm_compute; reflexivity|]; split; [left; reflexivity|reflexivity]|constructor]. }
        intro X. destruct (N _ _ X) as [[Y _]|[_ Y]]; discriminate.
Qed.
Lemma apart_meets : in_script_order apart /\ NoDup (map sort_key apart) /\ (forall m, In m apart -> proper (mb_lgr m) /\ texts_once m /\ unconditional m /\ complete m) /\
  forall f, f = when_of \/ f = not_when_of -> unambiguous f apart /\ same_rules f apart.
Proof.
  split; [unfold apart, in_script_order; repeat constructor; vm_compute; discriminate|]. split; [vm_compute; repeat constructor; cbn; intuition discriminate|].
  assert (G : forall s ops, proper (lgr_of ops) -> texts_once (of_ops s ops) -> letters (lg_rep (lgr_of ops)) -> complete_ops ops ->
    proper (mb_lgr (of_ops s ops)) /\ texts_once (of_ops s ops) /\ unconditional (of_ops s ops) /\ complete (of_ops s ops)).
  { intros s ops A B C D. split; [exact A|]. split; [exact B|]. split; [apply letters_unconditional; exact C|exact D]. }
  split; [intros m [<-|[<-|[]]]; (apply G; [apply proper_of; vm_compute; reflexivity|apply onceb_sound; vm_compute; reflexivity|apply of_letters; vm_compute; reflexivity|ops_complete])|].
  assert (Fr : forall m c, In m apart -> when_of m c = None /\ not_when_of m c = None).
  { intros m c Hm. unfold when_of, not_when_of. destruct (lookup (lg_rep (mb_lgr m)) c) as [ch|] eqn:L; [|auto]. revert L. destruct Hm as [<-|[<-|[]]]; apply ops_free; vm_compute; reflexivity. }
  intros f Hf. assert (N : forall m c, In m apart -> f m c = None) by (intros m c Hm; destruct (Fr m c Hm); destruct Hf as [-> | ->]; assumption).
  split; [split|].
  - intros m x c n _ Hx F. rewrite (N x c Hx) in F. discriminate.
  - intros m x rest R [r S]. assert (Hm : In m apart) by (apply (Permutation_in _ (Permutation_sym R)); left; reflexivity).
    assert (Hx : In x apart) by (apply (Permutation_in _ (Permutation_sym R)); right; left; reflexivity).
    assert (Nd : NoDup (map get_script (m :: x :: rest))) by (eapply Permutation_NoDup; [apply Permutation_map; exact R|]; vm_compute; repeat constructor; cbn; intuition discriminate).
    cbn [map] in Nd. apply NoDup_cons_iff in Nd. destruct Nd as [Nd _]. apply Nd. left. clear - S Hm Hx.
    destruct Hm as [<-|[<-|[]]]; destruct Hx as [<-|[<-|[]]]; vm_compute in S |- *; try reflexivity; discriminate.
  - intros c m x n1 n2 Hm _ F. rewrite (N m c Hm) in F. discriminate.
Qed.
Lemma apart_indices : indices (merge_lgr_set given given apart) [[1]; [2]; [3]; [3; 2]] = Some (true, [Ok [1]; Ok [1]; Ok [1]; Ok [1; 1]]).
Proof. vm_compute. reflexivity. Qed.
(** Two members: those above, and one with the variants 1, 2 and 3, 4, where the
    other relates 2 and 3. *)
Lemma apart_pair : pair_fits part_a (of_ops "B" apart_ops).
Proof. apply pair_fitted; [apply apart_meets; left; reflexivity|exact apart_fitted]. Qed.
Definition gap_ops : list lgr_op := full [1; 2] ++ full [3; 4].
Definition gap : list member := [of_ops "A" gap_ops; of_ops "B" (full [2; 3])].
Lemma gap_gives : forall x y, gives (of_ops "A" gap_ops) x y -> (x, y) = ([1], [2]) \/ (x, y) = ([2], [1]) \/ (x, y) = ([3], [4]) \/ (x, y) = ([4], [3]).
Proof. intros x y H. apply pair_in in H. vm_compute in H. destruct H as [H|[H|[H|[H|[]]]]]; injection H as <- <-; auto 6. Qed.
Lemma gap_misfit : ~ pair_fits (of_ops "A" gap_ops) (of_ops "B" (full [2; 3])).
Proof.
  intro F. assert (G : forall x y, gives (of_ops "B" (full [2; 3])) x y -> (x, y) = ([2], [3]) \/ (x, y) = ([3], [2])).
  { intros x y H. apply pair_in in H. vm_compute in H. destruct H as [H|[H|[]]]; injection H as <- <-; auto 6. }
  destruct (F [2] [3]) as [_ [_ F3]]; try discriminate; try (vm_compute; discriminate). apply F3.
  - eexists; eexists; split; [vm_compute; reflexivity|]; split; [left; reflexivity|reflexivity].
  - intro X. destruct (gap_gives _ _ X) as [Y|[Y|[Y|Y]]]; discriminate.
  - split; [exists [1]|exists [4]]; (split; [discriminate|]); (split; [eexists; eexists; split; [vm_compute; reflexivity|]; split; [left; reflexivity|reflexivity]|]);
      intro X; destruct (G _ _ X) as [Y|Y]; discriminate.
Qed.
Lemma gap_indices : indices (merge_lgr_set given given gap) [[1]; [2]; [3]; [4]] = Some (true, [Ok [1]; Ok [1]; Ok [1]; Ok [2]]).
Proof. vm_compute. reflexivity. Qed.
