From Coq Require Import Permutation.
From Verif Require Import Base BaseFacts CharModel RepSpec RepProofs VariantProofs IterProofs VarSetSpec VarSetProofs.
From Verif Require Import RefModel LgrModel LgrSpec LgrProofs LgrReach LgrInv LgrRefs LgrFinal Rfc7940Model.
From Verif Require Import ValidateModel ValidateSpec ValidateProofs ValidateFinal PopulateModel PopulateSpec PopulateProofs PopulateSteps PopulateFinal.
From Verif Require Import CompareModel CompareProofs HarmonizeModel HarmonizeSpec HarmonizeProofs HarmonizeFinal.
Open Scope string_scope.
Open Scope list_scope.


Lemma side_neat : forall G H g cs, neat G -> more G g (Nw G H cs) (Ot G H cs) -> neat g.
Proof.
  intros G H g cs Hn M a b v Hv. apply (m_map _ _ _ _ M) in Hv. destruct Hv as [Hv|[[_ [_ [_ E]]]|[_ [_ [E _]]]]]; [apply (Hn a b v Hv)| |]; subst v; cbn; split; discriminate.
Qed.
Lemma expanded_kept : forall order g1 g2 e1 e2 h1 h2 rs, rearranges order -> spelled_out g1 e1 -> spelled_out g2 e2 ->
  harmonize_expanded order e1 e2 = Ok (h1, h2, rs) -> (neat g1 -> kept g1 h1) /\ (neat g2 -> kept g2 h2).
Proof.
  intros order g1 g2 e1 e2 h1 h2 [r1 r2] Po S1 S2 E.
  destruct (expanded_harmonized order e1 e2 h1 h2 r1 r2 Po (spelled_expanded _ _ S1) (spelled_expanded _ _ S2) E) as [x1 [x2 [cs [_ [M1 [M2 [P1 [P2 _]]]]]]]].
  assert (Side : forall g G H x h, spelled_out g G -> more G x (Nw G H cs) (Ot G H cs) -> populate x = (h, Ok tt) -> neat g -> kept g h).
  { intros g G H x h S M P Hn a b v Hv. assert (Hg : neat G) by (intros a' b' v' Hv'; apply (spelled_mapping _ _ a' b' v' S) in Hv'; apply (Hn a' b' v' Hv')).
    apply (populate_keeps_variants x h (proj1 (m_exp _ _ _ _ M)) (side_neat _ _ _ _ Hg M) P). apply (m_map _ _ _ _ M). left. apply (spelled_mapping _ _ a b v S). exact Hv. }
  split; intro Hn; [apply (Side g1 e1 e2 x1 h1)|apply (Side g2 e2 e1 x2 h2)]; assumption.
Qed.
Theorem copies_keeps : forall order g1 g2 h1 h2 rs, rearranges order -> tidy g1 -> tidy g2 ->
  harmonize_copies order g1 g2 None = Ok (h1, h2, rs) -> (neat g1 -> kept g1 h1) /\ (neat g2 -> kept g2 h2).
Proof.
  intros order g1 g2 h1 h2 rs Po T1 T2 E. unfold harmonize_copies in E.
  destruct (expanded_ok g1 T1) as [e1 [E1 S1]]. destruct (expanded_ok g2 T2) as [e2 [E2 S2]]. rewrite E1, E2 in E. cbn [finished bind] in E.
  exact (expanded_kept order g1 g2 e1 e2 h1 h2 rs Po S1 S2 E).
Qed.

Lemma completed_target : forall r s t, completed r s t -> forall a b, has_target r a b -> has_target t a b.
Proof.
  intros r s t C a b H. destruct (cps_eq_dec a b) as [E|E]; [subst b; apply (co_itself _ _ _ C); left; exact H|].
  apply (co_related _ _ _ C a b E). eapply chained_forth; [left; exact H|constructor].
Qed.
Lemma single_single : forall ch, single (single ch) = single ch.
Proof. intros [a b c d e f i j]. unfold single. cbn. destruct b; reflexivity. Qed.
Lemma same_single : forall a b, same_entry a b -> same_entry (single a) (single b).
Proof. intros [a1 a2 a3 a4 a5 a6 a7 a8] [b1 b2 b3 b4 b5 b6 b7 b8] H. unfold same_entry, single in *. cbn in *. destruct H as [? [? H]]. subst. auto. Qed.
Lemma removed_trans : forall f g h, nothing_removed f g -> nothing_removed g h -> nothing_removed f h.
Proof.
  intros f g h [A1 [A2 [A3 A4]]] [B1 [B2 [B3 B4]]]. split; [congruence|]. split; [congruence|]. split; [|auto].
  intros a ch H. destruct (A3 a ch H) as [x [Hx Sx]]. destruct (B3 a x Hx) as [y [Hy Sy]]. exists y. split; [exact Hy|]. unfold same_but_range in *.
  eapply same_entry_trans; [|exact Sy]. rewrite <- single_single. apply same_single. exact Sx.
Qed.
Lemma pair_removed : forall g1 g2 h1 h2, harmonized_pair g1 g2 h1 h2 -> nothing_removed g1 h1 /\ nothing_removed g2 h2.
Proof.
  intros g1 g2 h1 h2 [C1 [C2 [[R1 R2] _]]]. split; (split; [|split; [|split]]); try apply R1; try apply R2; eapply completed_target; eassumption.
Qed.
Lemma spelled_removed : forall g e, spelled_out g e -> nothing_removed g e.
Proof.
  intros g e S. pose proof S as [_ [_ [_ [T [R _]]]]]. split; [exact R|]. split; [exact T|]. split.
  - intros a ch H. exists (single ch). split; [rewrite (spelled_lookup _ _ a S), H; reflexivity|]. apply same_entry_refl.
  - intros a b H. apply (spelled_target _ _ a b S). exact H.
Qed.
Theorem copies_removes_nothing : forall order g1 g2 root h1 h2 rs, rearranges order -> tidy g1 -> tidy g2 -> (forall z, root = Some z -> tidy z) ->
  harmonize_copies order g1 g2 root = Ok (h1, h2, rs) -> nothing_removed g1 h1 /\ nothing_removed g2 h2.
Proof.
  intros order g1 g2 [z|] h1 h2 [r1 r2] Po T1 T2 T3 E.
  - specialize (T3 z eq_refl). unfold harmonize_copies in E.
    destruct (expanded_ok g1 T1) as [e1 [E1 S1]]. destruct (expanded_ok g2 T2) as [e2 [E2 S2]]. rewrite E1, E2 in E. cbn [finished bind] in E.
    destruct (harmonize_two order e1 z) as [[[m1 y1] [a1 b1]]|e] eqn:H1; [|discriminate]. cbn [bind fst] in E.
    destruct (harmonize_two order e2 z) as [[[m2 y2] [a2 b2]]|e] eqn:H2; [|discriminate]. cbn [bind fst] in E.
    destruct (harmonize_two_ok order e1 z m1 y1 a1 b1 Po (tidy_expand _ _ _ T1 E1) T3 H1) as [X1 [_ [C1 _]]].
    destruct (harmonize_two_ok order e2 z m2 y2 a2 b2 Po (tidy_expand _ _ _ T2 E2) T3 H2) as [X2 [_ [C2 _]]].
    destruct (expanded_pair order m1 m2 m1 m2 h1 h2 r1 r2 Po (already_spelled _ X1) (already_spelled _ X2) (conj eq_refl eq_refl) (conj eq_refl eq_refl) E) as [_ [_ [C3 _]]].
    apply pair_removed in C1. apply pair_removed in C2. apply pair_removed in C3. apply spelled_removed in S1. apply spelled_removed in S2.
    split; (eapply removed_trans; [eassumption|]); (eapply removed_trans; [|apply C3]); [apply C1|apply C2].
  - destruct (harmonize_two_ok order g1 g2 h1 h2 r1 r2 Po T1 T2 E) as [_ [_ [C _]]]. apply pair_removed in C. exact C.
Qed.
