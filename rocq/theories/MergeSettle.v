(** Pairs harmonized again and again come to an end. *)
From Coq Require Import Permutation Lia PeanoNat.
From Verif Require Import Base BaseFacts CharModel RepSpec RepProofs LgrModel LgrSpec LgrProofs LgrReach LgrInv LgrFinal.
From Verif Require Import ValidateModel ValidateSpec ValidateProofs HarmonizeModel HarmonizeSpec HarmonizeProofs HarmonizeFinal HarmonizeCopy.
From Verif Require Import SerialSpec SerialFinal MergeModel MergeSpec MergeFinal MergeContext MergeSucceedSpec MergePairExact HarmMergeSpec HarmMerge HarmRoot MergeGlueSpec MergeGlue MergeSame MergeRun.
Open Scope nat_scope.
Open Scope list_scope.

(** ** Counting what is missing *)
Definition givesb (m : member) (p : cps * cps) : bool :=
  match lookup (lg_rep (mb_lgr m)) (fst p) with Some ch => memb cps_eqb (snd p) (map v_cp (get_variants ch)) | None => false end.
Lemma givesb_iff : forall m a b, givesb m (a, b) = true <-> gives m a b.
Proof.
  intros m a b. unfold givesb, gives, has_target, mapping. cbn [fst snd]. destruct (lookup (lg_rep (mb_lgr m)) a) as [ch|].
  - rewrite (memb_In _ _ cps_eqb_eq), in_map_iff. split; [intros [v [H1 H2]]; exists v, ch; auto|intros [v [c [H1 [H2 H3]]]]; injection H1 as <-; eauto].
  - split; [discriminate|intros [v [c [H _]]]; discriminate].
Qed.
Definition lacks (m : member) (p : cps * cps) : bool := (negb (cps_eqb (fst p) (snd p)) && negb (givesb m p))%bool.
Lemma lacks_iff : forall m a b, lacks m (a, b) = true <-> a <> b /\ ~ gives m a b.
Proof.
  intros m a b. unfold lacks. cbn [fst snd]. rewrite Bool.andb_true_iff, !Bool.negb_true_iff, <- !Bool.not_true_iff_false, cps_eqb_eq, givesb_iff. reflexivity.
Qed.
Lemma filter_less : forall (A : Type) (f g : A -> bool) u, (forall x, In x u -> g x = true -> f x = true) -> length (filter g u) <= length (filter f u) /\
  forall x, In x u -> f x = true -> g x = false -> length (filter g u) < length (filter f u).
Proof.
  intros A f g u. induction u as [|y u IH]; intro H; [split; [apply Nat.le_refl|intros x []]|]. destruct IH as [I1 I2]; [intros x Hx; apply H; right; exact Hx|].
  pose proof (H y (or_introl eq_refl)) as Hy. cbn [filter]. split.
  - destruct (g y); [rewrite (Hy eq_refl); cbn [length]; lia|]. destruct (f y); cbn [length]; lia.
  - intros x [->|Hx] F G; [rewrite F, G; cbn [length]; lia|]. specialize (I2 x Hx F G). destruct (g y); [rewrite (Hy eq_refl); cbn [length]; lia|]. destruct (f y); cbn [length]; lia.
Qed.
Definition missing (u : list (cps * cps)) (m : member) : nat := length (filter (lacks m) u).
Definition all_missing (u : list (cps * cps)) (l : list member) : nat := fold_right (fun m n => missing u m + n) 0 l.
Lemma missing_perm : forall u l l', Permutation l l' -> all_missing u l = all_missing u l'.
Proof. intros u l l' P. induction P; cbn [all_missing fold_right] in *; unfold all_missing in *; lia. Qed.

(** ** Members that differ on a shared code point *)
Definition differ (m m' : member) (p : cps * cps) : bool := (givesb m p && lacks m' p && match lookup (lg_rep (mb_lgr m')) (fst p) with Some _ => true | None => false end)%bool.
Definition covers (u : list (cps * cps)) (l : list member) : Prop := forall a b, a <> b -> chained (some_gives l) a b -> In (a, b) u.
Lemma same_or_not : forall u l, covers u l -> same_variants l \/ exists m m' c d, In m l /\ In m' l /\ c <> d /\ has_cp m' c /\ gives m c d /\ ~ gives m' c d.
Proof.
  intros u l U. destruct (existsb (fun m => existsb (fun m' => existsb (differ m m') u) l) l) eqn:E.
  - right. apply existsb_exists in E. destruct E as [m [Hm E]]. apply existsb_exists in E. destruct E as [m' [Hm' E]]. apply existsb_exists in E. destruct E as [[c d] [_ E]].
    unfold differ in E. apply andb_prop in E. destruct E as [E E3]. apply andb_prop in E. destruct E as [E1 E2]. apply givesb_iff in E1. apply lacks_iff in E2. destruct E2 as [E2 E4].
    exists m, m', c, d. repeat (split; [assumption|]). split; [|auto]. unfold has_cp. cbn [fst] in E3. destruct (lookup (lg_rep (mb_lgr m')) c); congruence.
  - left. intros m m' c d Hm Hm' N _ Hc G. destruct (givesb m' (c, d)) eqn:F; [apply givesb_iff; exact F|]. exfalso.
    assert (T : existsb (fun m => existsb (fun m' => existsb (differ m m') u) l) l = true); [|congruence].
    apply existsb_exists. exists m. split; [exact Hm|]. apply existsb_exists. exists m'. split; [exact Hm'|]. apply existsb_exists. exists (c, d).
    split; [apply U; [exact N|]; eapply chained_forth; [exists m; split; [exact Hm|exact G]|constructor]|].
    unfold differ. rewrite (proj2 (givesb_iff m c d) G). rewrite (proj2 (lacks_iff m' c d)); [|split; [exact N|rewrite <- givesb_iff; congruence]].
    unfold has_cp in Hc. cbn [fst]. destruct (lookup (lg_rep (mb_lgr m')) c); [reflexivity|congruence].
Qed.
Lemma two_of : forall (l : list member) m m', In m l -> In m' l -> m <> m' -> exists rest, Permutation l (m :: m' :: rest).
Proof.
  intros l m m' H H' N. apply in_split in H. destruct H as [l1 [l2 ->]]. assert (I : In m' (l1 ++ l2)) by (apply in_app_iff in H'; apply in_app_iff; destruct H' as [H'|[H'|H']]; [left|congruence|right]; assumption).
  apply in_split in I. destruct I as [k1 [k2 I]]. exists (k1 ++ k2). eapply perm_trans; [apply Permutation_sym, Permutation_middle|]. apply perm_skip. rewrite I. apply Permutation_sym, Permutation_middle.
Qed.

(** ** It ends *)
Lemma run_settles : forall u n l, all_missing u l <= n -> covers u l -> (forall m, In m l -> ready m) -> exists l', harmonized_run l l' /\ same_variants l'.
Proof.
  intros u n. induction n as [n IH] using lt_wf_ind. intros l Hn U G. destruct (same_or_not u l U) as [S|[m [m' [c [d [Hm [Hm' [N [Hc [Y X]]]]]]]]]]; [exists l; split; [constructor|exact S]|].
  assert (Po : rearranges (fun x => x)) by (intro x; apply Permutation_refl).
  destruct (two_of l m' m Hm' Hm) as [rest P]; [intros ->; apply X, Y|].
  destruct (harmonized_exists (fun x => x) m' m Po (proj1 (G m' Hm')) (proj1 (G m Hm))) as [h1 [h2 [rs E]]].
  destruct (pair_completed _ Po l rest m' m h1 h2 rs P E G) as [K1 K2].
  assert (U' : covers u (with_lgr m' h1 :: with_lgr m h2 :: rest)) by (intros a b Nab C; apply U; [exact Nab|]; apply (pair_chained _ Po l rest m' m h1 h2 rs P E G); exact C).
  assert (Kp : forall (x y : member) h, completed (lg_rep (mb_lgr x)) (lg_rep (mb_lgr y)) (lg_rep h) -> forall p, In p u -> lacks (with_lgr x h) p = true -> lacks x p = true).
  { intros x y h C [a b] _ L. apply lacks_iff in L. destruct L as [L1 L2]. apply lacks_iff. split; [exact L1|]. intro Z. apply L2. apply (co_related _ _ _ C a b L1). eapply chained_forth; [left; exact Z|constructor]. }
  assert (Lt : missing u (with_lgr m' h1) < missing u m').
  { apply (proj2 (filter_less _ (lacks m') (lacks (with_lgr m' h1)) u (Kp m' m h1 K1)) (c, d)).
    - apply U; [exact N|]. eapply chained_forth; [exists m; split; [exact Hm|exact Y]|constructor].
    - apply lacks_iff. auto.
    - apply Bool.not_true_iff_false. rewrite lacks_iff. intros [_ Z]. apply Z. apply (co_related _ _ _ K1 c d N). eapply chained_forth; [right; split; [split; [exact Hc|destruct Y as [v [ch [Q _]]]; congruence]|exact Y]|constructor]. }
  pose proof (proj1 (filter_less _ (lacks m) (lacks (with_lgr m h2)) u (Kp m m' h2 K2))) as Le.
  rewrite (missing_perm u l _ P) in Hn. unfold all_missing in Hn. cbn [fold_right] in Hn.
  destruct (IH (all_missing u (with_lgr m' h1 :: with_lgr m h2 :: rest))) with (l := with_lgr m' h1 :: with_lgr m h2 :: rest) as [l' [R S]]; [|apply Nat.le_refl|exact U'|apply (pair_ready _ Po l rest m' m h1 h2 rs P E G)|].
  { unfold all_missing. cbn [fold_right]. unfold missing in *. lia. }
  exists l'. split; [|exact S]. eapply run_pair; [exact P|exact Po|exact E|exact R].
Qed.
Lemma covered : forall l, (forall m, In m l -> ready m) -> exists u, covers u l.
Proof.
  intros l G. set (cs := flat_map (fun m => map ch_cp (all_chars (lg_rep (mb_lgr m)))) l). exists (list_prod cs cs).
  assert (I : forall a b, some_gives l a b -> In a cs).
  { intros a b [m [Hm [v [ch [H _]]]]]. unfold cs. apply in_flat_map. exists m. split; [exact Hm|]. rewrite lookup_lk in H. apply in_map_iff. exists ch. split; [eapply lk_cp; eauto|eapply lk_in_all; eauto]. 
    apply lgr_reachable_wf, tidy_reachable, proper_tidy, (G m Hm). }
  assert (J : forall a b, some_gives l a b -> In b cs).
  { intros a b [m [Hm H]]. destruct (G m Hm) as [_ [_ [_ [C _]]]]. apply (I b a). exists m. split; [exact Hm|]. apply C. exact H. }
  assert (F : forall a b, chained (some_gives l) a b -> a <> b -> In a cs) by (intros a b C N; destruct C; [congruence|eapply I; eauto|eapply J; eauto]).
  intros a b N C. apply in_prod; [apply (F a b C N)|]. apply (F b a); [apply chained_sym; exact C|congruence].
Qed.
Theorem settling : forall l, (forall m, In m l -> proper (mb_lgr m) /\ texts_once m /\ MergeSpec.unconditional m /\ complete m) -> exists l', harmonized_run l l' /\ forall m m', In m l' -> In m' l' -> settled_pair m m'.
Proof.
  intros l G. destruct (covered l G) as [u U]. destruct (run_settles u _ l (Nat.le_refl _) U G) as [l' [R S]]. exists l'. split; [exact R|].
  destruct (run_keeps l l' R G) as [A _]. apply same_settled; [intros m Hm; split; apply (A m Hm)|exact S].
Qed.

(** ** No run of pairs that add something is longer than what was missing *)
Lemma gain_apart : forall (x y : member) h, complete x -> completed (lg_rep (mb_lgr x)) (lg_rep (mb_lgr y)) (lg_rep h) -> forall a b, has_target (lg_rep h) a b -> ~ gives x a b ->
  exists c d, c <> d /\ has_target (lg_rep h) c d /\ ~ gives x c d.
Proof.
  intros x y h [Sx _] C a b H N. destruct (cps_eq_dec a b) as [<-|Nab]; [|exists a, b; auto]. apply (co_itself _ _ _ C) in H. destruct H as [H|[L [c [[A B] [G _]]]]]; [contradiction|].
  assert (Nc : c <> a) by (intros ->; contradiction). exists c, a. split; [exact Nc|]. split.
  - apply (co_related _ _ _ C c a Nc). eapply chained_forth; [right; split; [split; [exact A|exact B]|exact G]|constructor].
  - intro Z. destruct (Sx _ _ Z) as [Z1 _]. apply Z1. exact L.
Qed.
Lemma gaining_bound : forall u n l l', gaining_run n l l' -> covers u l -> (forall m, In m l -> ready m) -> n <= all_missing u l.
Proof.
  intros u n l l' R. induction R as [l|n l m1 m2 rest order h1 h2 rs l' P Po E Ga R IH]; intros U G; [apply Nat.le_0_l|].
  destruct (pair_completed _ Po l rest m1 m2 h1 h2 rs P E G) as [K1 K2]. pose proof (in1 l rest m1 m2 P) as I1. pose proof (in2 l rest m1 m2 P) as I2.
  assert (U' : covers u (with_lgr m1 h1 :: with_lgr m2 h2 :: rest)) by (intros a b Nab C; apply U; [exact Nab|]; apply (pair_chained _ Po l rest m1 m2 h1 h2 rs P E G); exact C).
  specialize (IH U' (pair_ready _ Po l rest m1 m2 h1 h2 rs P E G)). rewrite (missing_perm u l _ P). unfold all_missing in *. cbn [fold_right] in *.
  assert (Kp : forall (x y : member) h, completed (lg_rep (mb_lgr x)) (lg_rep (mb_lgr y)) (lg_rep h) -> forall p, In p u -> lacks (with_lgr x h) p = true -> lacks x p = true).
  { intros x y h C [a b] _ L. apply lacks_iff in L. destruct L as [L1 L2]. apply lacks_iff. split; [exact L1|]. intro Z. apply L2. apply (co_related _ _ _ C a b L1). eapply chained_forth; [left; exact Z|constructor]. }
  assert (Lt : forall (x y : member) h, complete x -> completed (lg_rep (mb_lgr x)) (lg_rep (mb_lgr y)) (lg_rep h) -> In (with_lgr x h) (with_lgr m1 h1 :: with_lgr m2 h2 :: rest) ->
    forall a b, has_target (lg_rep h) a b -> ~ gives x a b -> missing u (with_lgr x h) < missing u x).
  { intros x y h Cx C Hi a b H N. destruct (gain_apart x y h Cx C a b H N) as [c [d [N1 [N2 N3]]]]. apply (proj2 (filter_less _ (lacks x) (lacks (with_lgr x h)) u (Kp x y h C)) (c, d)).
    - apply U'; [exact N1|]. eapply chained_forth; [exists (with_lgr x h); split; [exact Hi|exact N2]|constructor].
    - apply lacks_iff. auto.
    - apply Bool.not_true_iff_false. rewrite lacks_iff. intros [_ Z]. apply Z. exact N2. }
  pose proof (proj1 (filter_less _ (lacks m1) (lacks (with_lgr m1 h1)) u (Kp m1 m2 h1 K1))) as L1. pose proof (proj1 (filter_less _ (lacks m2) (lacks (with_lgr m2 h2)) u (Kp m2 m1 h2 K2))) as L2.
  fold (missing u (with_lgr m1 h1)) in L1. fold (missing u m1) in L1. fold (missing u (with_lgr m2 h2)) in L2. fold (missing u m2) in L2.
  destruct Ga as [a [b [[H N]|[H N]]]].
  - pose proof (Lt m1 m2 h1 (proj2 (proj2 (proj2 (G m1 I1)))) K1 (or_introl eq_refl) a b H N). lia.
  - pose proof (Lt m2 m1 h2 (proj2 (proj2 (proj2 (G m2 I2)))) K2 (or_intror (or_introl eq_refl)) a b H N). lia.
Qed.
Theorem gaining_ends : forall l, (forall m, In m l -> proper (mb_lgr m) /\ texts_once m /\ MergeSpec.unconditional m /\ complete m) -> exists k, forall n l', gaining_run n l l' -> n <= k.
Proof. intros l G. destruct (covered l G) as [u U]. exists (all_missing u l). intros n l' R. apply (gaining_bound u n l l' R U G). Qed.
