From Coq Require Import Permutation.
From Verif Require Import Base BaseFacts CharModel RepSpec RepProofs VariantProofs IterProofs VarSetSpec VarSetProofs.
From Verif Require Import RefModel LgrModel LgrSpec LgrProofs LgrReach LgrInv LgrRefs LgrFinal Rfc7940Model.
From Verif Require Import ValidateModel ValidateSpec ValidateProofs ValidateFinal PopulateModel PopulateSpec PopulateProofs PopulateSteps PopulateFinal.
From Verif Require Import CompareModel CompareProofs HarmonizeModel HarmonizeSpec HarmonizeProofs HarmonizeFinal HarmonizeKeep HarmonizeCopy.
Open Scope string_scope.
Open Scope list_scope.

(** ** Samples *)
Definition as_is (l : list cps) : list cps := l.
Lemma as_is_rearranges : rearranges as_is. Proof. intro l. apply Permutation_refl. Qed.
Lemma rev_rearranges : rearranges (@rev cps). Proof. intro l. apply Permutation_sym. apply Permutation_rev. Qed.
Lemma lgr_of_tidy : forall ops, each_stepb tidy_opb (new_lgr None true) ops = true -> tidy (lgr_of ops).
Proof. intros ops H. unfold lgr_of. apply tidy_run; [apply tidy_new|]. apply (each_stepb_sound _ _ tidy_opb_sound). exact H. Qed.
Definition passes_transitivity (g : lgr) : bool := match snd (check_transitivity g) with Ok (b, _) => b | Raise _ => false end.
Lemma transitive_checked : forall g, lgr_reachable g -> passes_transitivity g = true -> transitive (lg_rep g).
Proof.
  intros g Hr H. destruct (check_transitivity_spec g Hr) as [rs [ok [is [E [H3 _]]]]]. unfold passes_transitivity in H. rewrite E in H. cbn [snd] in H. apply H3. exact H.
Qed.
Definition plainb (g : lgr) : bool :=
  forallb (fun ch => forallb (fun v => ((negb (is_some (v_when v)) || negb (is_some (v_not_when v))) && match v_refs v with [] => true | _ => false end)%bool) (get_variants ch)) (all_chars (lg_rep g)).
Lemma plainb_sound : forall g, lgr_reachable g -> plainb g = true -> plain_variants g.
Proof.
  intros g Hr H a b v Hv. apply mapping_lk in Hv. destruct Hv as [ch [H1 [H2 H3]]]. unfold plainb in H. rewrite forallb_forall in H.
  assert (Hi : In ch (all_chars (lg_rep g))) by (apply in_all_chars_lk; [apply (lgr_reachable_wf g Hr)|]; rewrite (lk_cp _ _ _ H1); exact H1).
  specialize (H ch Hi). rewrite forallb_forall in H. specialize (H v H2). apply andb_prop in H. destruct H as [Ha Hb]. split.
  - destruct (v_when v); [|auto]. destruct (v_not_when v); [discriminate|auto].
  - destruct (v_refs v); [|discriminate]. split; [constructor|]. intros x [].
Qed.

(** Two LGRs with common code points 1 and 5 (the second has a range); 2 is
    only in the first, 3 and [6; 7] only in the second. *)
Definition first_ops : list lgr_op := [lcp [1]; lcp [2]; lcp [5]; lvar [1] [2]; lvar [2] [1]].
Definition second_ops : list lgr_op :=
  [lcp [1]; lcp [3]; lcp [6; 7]; lcp [5]; LAddRange 20 22 None [] [] None None None false false; lvar [1] [3]; lvar [3] [1]; lvar [5] [6; 7]; lvar [6; 7] [5]].
Definition shown (x : res (lgr * lgr * (list cps * list cps))) (cs : list cps) : option (list (list cps) * list (list cps) * (list cps * list cps)) :=
  match x with Ok (h1, h2, r) => Some (map (targets_of h1) cs, map (targets_of h2) cs, r) | Raise _ => None end.
Lemma sample_meets : tidy (lgr_of first_ops) /\ tidy (lgr_of second_ops) /\ plain_variants (lgr_of first_ops) /\ plain_variants (lgr_of second_ops) /\
  symmetric (lg_rep (lgr_of first_ops)) /\ transitive (lg_rep (lgr_of first_ops)) /\ symmetric (lg_rep (lgr_of second_ops)) /\ transitive (lg_rep (lgr_of second_ops)).
Proof.
  split; [apply lgr_of_tidy; vm_compute; reflexivity|]. split; [apply lgr_of_tidy; vm_compute; reflexivity|].
  split; [apply plainb_sound; [apply lgr_of_reachable|vm_compute; reflexivity]|]. split; [apply plainb_sound; [apply lgr_of_reachable|vm_compute; reflexivity]|].
  split; [apply check_symmetry_decides; [apply lgr_of_reachable|vm_compute; eexists; eexists; reflexivity]|].
  split; [apply transitive_checked; [apply lgr_of_reachable|vm_compute; reflexivity]|].
  split; [apply check_symmetry_decides; [apply lgr_of_reachable|vm_compute; eexists; eexists; reflexivity]|].
  apply transitive_checked; [apply lgr_of_reachable|vm_compute; reflexivity].
Qed.
Lemma sample_result : shown (harmonize as_is (lgr_of first_ops) (lgr_of second_ops) None) [[1]; [2]; [3]; [5]; [6; 7]] =
  Some ([[[2]; [3]]; [[1]; [3]]; [[1]; [2]; [3]]; [[6; 7]]; [[5]; [6; 7]]],
        [[[2]; [3]]; [[1]; [2]; [3]]; [[1]; [2]]; [[6; 7]]; [[5]]],
        ([[2]], [[3]; [6; 7]; [20]; [21]; [22]])).
Proof. vm_compute. reflexivity. Qed.

(** Without transitivity, and without symmetry, they need not agree. *)
Definition long_chain : list lgr_op := [lcp [1]; lcp [2]; lcp [3]; lcp [4]; lvar [1] [2]; lvar [2] [1]; lvar [2] [4]; lvar [4] [2]; lvar [4] [3]; lvar [3] [4]].
Definition one_way : list lgr_op := [lcp [1]; lcp [2]; lcp [3]; lvar [2] [1]; lvar [2] [3]].
Definition two_alone : list lgr_op := [lcp [1]; lcp [3]].
Definition has_targetb (g : lgr) (a b : cps) : bool :=
  match lookup (lg_rep g) a with Some ch => memb cps_eqb b (map v_cp (get_variants ch)) | None => false end.
Lemma has_targetb_iff : forall g a b, has_targetb g a b = true <-> has_target (lg_rep g) a b.
Proof.
  intros g a b. unfold has_targetb, has_target, mapping. destruct (lookup (lg_rep g) a) as [ch|].
  - rewrite (memb_In _ _ cps_eqb_eq), in_map_iff. split; [intros [v [H1 H2]]; exists v, ch; auto|]. intros [v [x [H1 [H2 H3]]]]. injection H1 as H1. subst x. exists v. auto.
  - split; [discriminate|]. intros [v [x [H _]]]. discriminate.
Qed.
Definition disagreeb (x : res (lgr * lgr * (list cps * list cps))) (a b : cps) : bool :=
  match x with
  | Ok (h1, h2, _) => if is_some (lookup (lg_rep h1) a) then if is_some (lookup (lg_rep h1) b) then if is_some (lookup (lg_rep h2) a) then if is_some (lookup (lg_rep h2) b)
      then (has_targetb h1 a b && negb (has_targetb h2 a b))%bool else false else false else false else false
  | Raise _ => false
  end.
Lemma disagree_sound : forall x a b, disagreeb x a b = true -> exists h1 h2 rs, x = Ok (h1, h2, rs) /\ lookup (lg_rep h1) a <> None /\ lookup (lg_rep h1) b <> None /\
  lookup (lg_rep h2) a <> None /\ lookup (lg_rep h2) b <> None /\ has_target (lg_rep h1) a b /\ ~ has_target (lg_rep h2) a b.
Proof.
  intros [[[h1 h2] rs]|e] a b H; [|discriminate]. cbn [disagreeb] in H. exists h1, h2, rs. split; [reflexivity|].
  destruct (lookup (lg_rep h1) a); [|discriminate]. destruct (lookup (lg_rep h1) b); [|discriminate]. destruct (lookup (lg_rep h2) a); [|discriminate]. destruct (lookup (lg_rep h2) b); [|discriminate].
  cbn [is_some] in H. apply andb_prop in H. destruct H as [H1 H2]. do 4 (split; [discriminate|]). split; [apply has_targetb_iff; exact H1|].
  intro X. apply has_targetb_iff in X. rewrite X in H2. discriminate.
Qed.
Lemma disagree_symmetric : exists g1 g2 a b h1 h2 rs, tidy g1 /\ tidy g2 /\ symmetric (lg_rep g1) /\ symmetric (lg_rep g2) /\
  harmonize as_is g1 g2 None = Ok (h1, h2, rs) /\ lookup (lg_rep g1) a <> None /\ lookup (lg_rep g1) b <> None /\ lookup (lg_rep g2) a <> None /\ lookup (lg_rep g2) b <> None /\
  has_target (lg_rep h1) a b /\ ~ has_target (lg_rep h2) a b.
Proof.
  exists (lgr_of long_chain), (lgr_of two_alone), [1], [3].
  destruct (disagree_sound (harmonize as_is (lgr_of long_chain) (lgr_of two_alone) None) [1] [3]) as [h1 [h2 [rs [E [_ [_ [_ [_ H]]]]]]]]; [vm_compute; reflexivity|].
  exists h1, h2, rs. split; [apply lgr_of_tidy; vm_compute; reflexivity|]. split; [apply lgr_of_tidy; vm_compute; reflexivity|].
  split; [apply check_symmetry_decides; [apply lgr_of_reachable|vm_compute; eexists; eexists; reflexivity]|].
  split; [apply check_symmetry_decides; [apply lgr_of_reachable|vm_compute; eexists; eexists; reflexivity]|].
  split; [exact E|]. do 4 (split; [vm_compute; discriminate|]). exact H.
Qed.
Lemma disagree_transitive : exists g1 g2 a b h1 h2 rs, tidy g1 /\ tidy g2 /\ transitive (lg_rep g1) /\ transitive (lg_rep g2) /\
  harmonize as_is g1 g2 None = Ok (h1, h2, rs) /\ lookup (lg_rep g1) a <> None /\ lookup (lg_rep g1) b <> None /\ lookup (lg_rep g2) a <> None /\ lookup (lg_rep g2) b <> None /\
  has_target (lg_rep h1) a b /\ ~ has_target (lg_rep h2) a b.
Proof.
  exists (lgr_of one_way), (lgr_of two_alone), [1], [3].
  destruct (disagree_sound (harmonize as_is (lgr_of one_way) (lgr_of two_alone) None) [1] [3]) as [h1 [h2 [rs [E [_ [_ [_ [_ H]]]]]]]]; [vm_compute; reflexivity|].
  exists h1, h2, rs. split; [apply lgr_of_tidy; vm_compute; reflexivity|]. split; [apply lgr_of_tidy; vm_compute; reflexivity|].
  split; [apply transitive_checked; [apply lgr_of_reachable|vm_compute; reflexivity]|].
  split; [apply transitive_checked; [apply lgr_of_reachable|vm_compute; reflexivity]|].
  split; [exact E|]. do 4 (split; [vm_compute; discriminate|]). exact H.
Qed.
(** With a root zone LGR relating them, the two last ones agree. *)
Lemma root_result : shown (harmonize (@rev cps) (lgr_of one_way) (lgr_of two_alone) (Some (lgr_of second_ops))) [[1]; [2]; [3]] =
  Some ([[[2]; [3]]; [[1]; [3]]; [[1]; [2]]], [[[2]; [3]]; [[1]; [2]; [3]]; [[1]; [2]]], ([[2]], [])).
Proof. vm_compute. reflexivity. Qed.

(** The code point taken over is not one the LGR accepts. *)
Definition all_but_two : unidb := mkDb (fun x => negb (N.eqb x 2)) (fun _ => "Latin").
Definition strict_lgr : lgr := fst (lgr_run (new_lgr (Some all_but_two) false) [lcp [1]]).
Lemma taken_anyway : exists g1 g2 h1 h2 rs x, tidy g1 /\ tidy g2 /\ lg_raise g2 = true /\ idna_invalid g2 x /\
  harmonize as_is g1 g2 None = Ok (h1, h2, rs) /\ lookup (lg_rep h2) [x] <> None.
Proof.
  exists (lgr_of first_ops), strict_lgr. eexists. eexists. eexists. exists 2. split; [apply sample_meets|].
  split; [unfold strict_lgr; apply tidy_run; [apply tidy_new|]; apply (each_stepb_sound _ _ tidy_opb_sound); vm_compute; reflexivity|].
  split; [reflexivity|]. split; [exists all_but_two; split; reflexivity|]. split; [vm_compute; reflexivity|]. vm_compute. discriminate.
Qed.

Lemma append_length : forall x y, String.length (x ++ y)%string = (String.length x + String.length y)%nat.
Proof. induction x; intro y; cbn; auto. Qed.
Lemma comment_unmarked : exists c, harmonized_comment (Some c) = Some c /\ forall d, (d ++ " - Harmonized")%string <> c.
Proof.
  exists "First". split; [reflexivity|]. intros d H. apply (f_equal String.length) in H. rewrite append_length in H. cbn in H. lia.
Qed.

