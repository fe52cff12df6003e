From Coq Require Import Sorting.Sorted Permutation.
From Verif Require Import Base BaseFacts CharModel RepSpec RepProofs VariantProofs RefModel LgrModel LgrSpec LgrReach LgrInv LgrMirror Rfc7940Model Rfc7940Spec Rfc7940Proofs VarSetSpec ValidateModel ValidateSpec ValidateProofs StatsProofs.
Open Scope string_scope.
Open Scope list_scope.

(** ** Driver *)
Definition count_true (l : list bool) : nat := length (filter (fun b => b) l).
Fixpoint rfc_copies (n : nat) : list string := match n with O => [] | S n => rfc7940_checks ++ rfc_copies n end.
Lemma rfc_copies_snoc : forall n, rfc_copies n ++ rfc7940_checks = rfc_copies (S n).
Proof.
  induction n as [|n IH]; [reflexivity|]. cbn [rfc_copies]. rewrite <- app_assoc, IH. reflexivity.
Qed.
Lemma checks_after_spec : forall h, checks_after h = initial_checks ++ rfc_copies (count_true h).
Proof.
  unfold checks_after. assert (G : forall h cs n, cs = initial_checks ++ rfc_copies n ->
    fold_left (fun cs b => fst (validate_lgr (R := unit) (fun _ => Ok tt) cs b)) h cs = initial_checks ++ rfc_copies (n + count_true h)).
  { induction h as [|b h IH]; intros cs n E; cbn [fold_left].
    - unfold count_true. cbn [filter length]. rewrite Nat.add_0_r. exact E.
    - destruct b.
      + rewrite (IH _ (S n)).
        * unfold count_true. cbn [filter length]. f_equal. f_equal. lia.
        * cbn [validate_lgr fst]. rewrite E, <- app_assoc, rfc_copies_snoc. reflexivity.
      + rewrite (IH _ n); [reflexivity|]. exact E. }
  intro h. rewrite (G h initial_checks 0%nat); [reflexivity|]. cbn [rfc_copies]. rewrite app_nil_r. reflexivity.
Qed.
(** What the driver returns for a given list of checks. *)
Lemma run_all_spec : forall R (run : string -> res R) l,
  match run_all run l with
  | Ok rs => map fst rs = l /\ Forall2 (fun n p => snd p = match run n with Ok r => Result r | Raise e => Failure e end) l rs
             /\ (forall n e, In n l -> run n = Raise e -> is_lgr_exception e = true)
  | Raise e => exists pre n post, l = pre ++ n :: post /\ run n = Raise e /\ is_lgr_exception e = false /\
                 forall m e', In m pre -> run m = Raise e' -> is_lgr_exception e' = true
  end.
Proof.
  intros R run l. induction l as [|n l IH]; cbn [run_all]; [split; [reflexivity|]; split; [constructor|intros n e []]|].
  destruct (run n) as [r|e] eqn:E; [|destruct (is_lgr_exception e) eqn:El].
  - destruct (run_all run l) as [rs|e0]; cbn [bind].
    + destruct IH as [H1 [H2 H3]]. split; [cbn; rewrite H1; reflexivity|]. split; [constructor; [rewrite E; reflexivity|exact H2]|].
      intros m e [Hm|Hm] He; [subst; congruence|eauto].
    + destruct IH as [pre [m [post [H1 [H2 [H3 H4]]]]]]. exists (n :: pre), m, post. subst l. split; [reflexivity|]. split; [exact H2|]. split; [exact H3|].
      intros m' e' [Hm|Hm] He; [subst; congruence|eauto].
  - destruct (run_all run l) as [rs|e0]; cbn [bind].
    + destruct IH as [H1 [H2 H3]]. split; [cbn; rewrite H1; reflexivity|]. split; [constructor; [rewrite E; reflexivity|exact H2]|].
      intros m e' [Hm|Hm] He; [subst; congruence|eauto].
    + destruct IH as [pre [m [post [H1 [H2 [H3 H4]]]]]]. exists (n :: pre), m, post. subst l. split; [reflexivity|]. split; [exact H2|]. split; [exact H3|].
      intros m' e' [Hm|Hm] He; [subst; congruence|eauto].
  - exists [], n, l. split; [reflexivity|]. split; [exact E|]. split; [exact El|]. intros m e' [].
Qed.
Lemma validate_run_independent : forall R (run : string -> res R) h b, ~ In true h ->
  validate_lgr run (checks_after h) b = (spec_checks b, run_all run (spec_checks b)).
Proof.
  intros R run h b Hh. rewrite checks_after_spec. assert (E : count_true h = 0%nat).
  { unfold count_true. induction h as [|[|] h IH]; [reflexivity|exfalso; apply Hh; left; reflexivity|]. cbn [filter]. apply IH. intro H. apply Hh. right. exact H. }
  rewrite E. cbn [rfc_copies]. rewrite app_nil_r. unfold validate_lgr, spec_checks. destruct b; [reflexivity|]. rewrite app_nil_r. reflexivity.
Qed.
Lemma validate_run_general : forall R (run : string -> res R) h b,
  snd (validate_lgr run (checks_after h) b) = run_all run (initial_checks ++ rfc_copies (count_true (h ++ [b]))).
Proof.
  intros R run h b. unfold validate_lgr. cbn [snd]. rewrite checks_after_spec. f_equal. unfold count_true. rewrite filter_app, app_length.
  destruct b; cbn [filter length]; [rewrite <- app_assoc, rfc_copies_snoc, Nat.add_1_r|rewrite Nat.add_0_r]; reflexivity.
Qed.
Lemma validate_run_dependent : exists h b, fst (validate_lgr (R := unit) (fun _ => Ok tt) (checks_after h) b) <> spec_checks b.
Proof. exists [true], false. vm_compute. discriminate. Qed.

(** ** Sample LGRs *)
Definition lcp (c : cps) := LAddCp c None [] [] None None None false false.
Definition lvar (a b : cps) := LAddVariant a b (Some "blocked") None None None [] None false false.
Definition lvarw (a b : cps) (w : option string) := LAddVariant a b (Some "blocked") w None None [] None false false.
Definition lgr_of (ops : list lgr_op) : lgr := fst (lgr_run (new_lgr None true) ops).
Lemma lgr_of_reachable : forall ops, lgr_reachable (lgr_of ops).
Proof. intro ops. exists None, true, ops. reflexivity. Qed.

(** Symmetric and transitive triangle with a rule mirrored. *)
Definition tri_ops : list lgr_op :=
  [lcp [1]; lcp [2]; lcp [3; 4]; lvarw [1] [2] (Some "r"); lvarw [2] [1] (Some "r"); lvar [1] [3; 4]; lvar [3; 4] [1];
   lvar [2] [3; 4]; lvar [3; 4] [2]].
Lemma tri_checks :
  (exists rs is, check_symmetry (lgr_of tri_ops) true = (rs, Ok (true, is))) /\
  (exists rs is, check_symmetry (lgr_of tri_ops) false = (rs, Ok (true, is))) /\
  (exists rs is, check_transitivity (lgr_of tri_ops) = (rs, Ok (true, is))) /\
  variant_pairs (lgr_of tri_ops) <> [].
Proof.
  split; [|split; [|split]]; try (vm_compute; discriminate); vm_compute; eexists; eexists; reflexivity.
Qed.

(** With [ignore_rules], [strict_symmetry] is recorded as passed although a
    rule is not mirrored. *)
Lemma strict_recorded_untested : exists g, lgr_reachable g /\ ~ rules_mirrored (lg_rep g) /\
  dget String.eqb "strict_symmetry" (apply_reports [] (fst (check_symmetry g true))) = Some true.
Proof.
  exists (lgr_of [lcp [1]; lcp [2]; lvarw [1] [2] (Some "r"); lvar [2] [1]]). split; [apply lgr_of_reachable|]. split; [|vm_compute; reflexivity].
  intro H. destruct (check_symmetry_decides_rules _ (lgr_of_reachable [lcp [1]; lcp [2]; lvarw [1] [2] (Some "r"); lvar [2] [1]])) as [_ D].
  destruct D as [rs [is D]].
  - split; [|exact H]. apply check_symmetry_decides; [apply lgr_of_reachable|]. vm_compute. eexists. eexists. reflexivity.
  - vm_compute in D. discriminate.
Qed.
(** [strict_symmetry] is recorded as passed although symmetry itself fails. *)
Lemma strict_recorded_asymmetric : exists g, lgr_reachable g /\ ~ symmetric (lg_rep g) /\
  dget String.eqb "strict_symmetry" (apply_reports [] (fst (check_symmetry g false))) = Some true.
Proof.
  exists (lgr_of [lcp [1]; lcp [2]; lvarw [1] [2] (Some "r")]). split; [apply lgr_of_reachable|]. split; [|vm_compute; reflexivity].
  intro H. apply check_symmetry_decides in H; [|apply lgr_of_reachable]. destruct H as [rs [is H]]. vm_compute in H. discriminate.
Qed.
(** What [strict_symmetry] records with the rules. *)
Lemma strict_recorded : forall g, lgr_reachable g -> symmetric (lg_rep g) ->
  (dget String.eqb "strict_symmetry" (apply_reports [] (fst (check_symmetry g false))) = Some true <-> rules_mirrored (lg_rep g)).
Proof.
  intros g Hre Hs. destruct (check_symmetry_issues g Hre false) as [rs [ok [is [E [H1 [H2 [H3 [H4 H5]]]]]]]].
  destruct (check_symmetry_decides_rules g Hre) as [D1 D2]. rewrite E in *. cbn [fst].
  destruct (apply_get_empty rs "strict_symmetry") as [_ [_ C]]. rewrite C. split.
  - intros [_ Hn]. apply D1. exists rs, is. rewrite (proj2 H1); [reflexivity|].
    destruct is as [|[[ch v] p] is0]; auto. exfalso. apply Hn. apply H5. exists ch, v, p. split; [left; reflexivity|].
    destruct (proj1 (H2 ch v p) (or_introl eq_refl)) as [Ha [Hb Hp]]. destruct (Hs (ch_cp ch) (v_cp v)) as [Hc Hd]; [exists v, ch; auto|].
    inversion Hp; subst; try contradiction; reflexivity.
  - intro Hr. split; [exact H4|]. intro Hf. apply H5 in Hf. destruct Hf as [ch [v [p [Hi _]]]].
    destruct (D2 (conj Hs Hr)) as [rs' [is' E']]. injection E' as _ E' _. apply H1 in E'. subst is. contradiction.
Qed.

(** The transitivity check fails without recording it. *)
Lemma transitivity_not_recorded : exists g rs is, lgr_reachable g /\ check_transitivity g = (rs, Ok (false, is)) /\
  dget String.eqb "basic_transitivity" (apply_reports [] rs) = Some true.
Proof.
  exists (lgr_of [lcp [1]; lvar [1] [2]]). eexists. eexists. split; [apply lgr_of_reachable|]. vm_compute. split; reflexivity.
Qed.
Lemma transitivity_recorded : forall g, lgr_reachable g ->
  (forall a b, has_target (lg_rep g) a b -> lookup (lg_rep g) b <> None) ->
  (dget String.eqb "basic_transitivity" (apply_reports [] (fst (check_transitivity g))) = Some true <-> transitive (lg_rep g)).
Proof.
  intros g Hre Hc. destruct (check_transitivity_spec g Hre) as [rs [ok [is [E [H1 [H2 [H3 H4]]]]]]]. rewrite E. cbn [fst].
  destruct (apply_get_empty rs "basic_transitivity") as [_ [_ C]]. rewrite C, H4. split.
  - intros [_ Hn] a b Hab. split; [eapply Hc; eauto|]. intros c Hbc Hca. destruct (has_target_dec (lg_rep g) a c) as [H|H]; auto.
    exfalso. apply Hn. exists a, c, b. auto.
  - intro Ht. split; [exact H3|]. intros [a [c [b [Hab [Hbc [Hca Hn]]]]]]. apply Hn. destruct (Ht a b Hab) as [_ Hx]. apply Hx; auto.
Qed.

(** ** Statistics *)
Definition stat_ops : list lgr_op :=
  [LAddRange 10 14 None [] ["t"] None None None false false; lcp [1]; lcp [2; 3]; lvar [1] [2; 3]; lvar [2; 3] [1]; lvarw [1] [2; 3] (Some "r")].
Lemma tidy_lgr_of : forall ops, (forall pre o post, ops = pre ++ o :: post -> tidy_op (lgr_of pre) o) -> tidy (lgr_of ops).
Proof.
  induction ops as [|o ops IH] using rev_ind; intro H; [apply tidy_new|].
  unfold lgr_of. rewrite lgr_run_app. cbn [lgr_run]. fold (lgr_of ops).
  assert (T : tidy (lgr_of ops)).
  { apply IH. intros pre o' post E. apply (H pre o' (post ++ [o])). rewrite E, <- app_assoc. reflexivity. }
  pose proof (tidy_step (lgr_of ops) o T (H ops o [] eq_refl)) as S. destruct (lgr_step (lgr_of ops) o) as [g1 x]. exact S.
Qed.
Lemma stat_tidy : tidy (lgr_of stat_ops).
Proof.
  unfold lgr_of, stat_ops. cbn [lgr_run].
  assert (T1 : tidy (fst (lgr_step (new_lgr None true) (LAddRange 10 14 None [] ["t"] None None None false false)))).
  { apply tidy_step; [apply tidy_new|]. left. vm_compute. reflexivity. }
  destruct (lgr_step (new_lgr None true) (LAddRange 10 14 None [] ["t"] None None None false false)) as [g1 x1]. cbn [fst] in T1.
  pose proof (tidy_step g1 (lcp [1]) T1 I) as T2. destruct (lgr_step g1 (lcp [1])) as [g2 x2]. cbn [fst] in T2.
  pose proof (tidy_step g2 (lcp [2; 3]) T2 I) as T3. destruct (lgr_step g2 (lcp [2; 3])) as [g3 x3]. cbn [fst] in T3.
  pose proof (tidy_step g3 (lvar [1] [2; 3]) T3 I) as T4. destruct (lgr_step g3 (lvar [1] [2; 3])) as [g4 x4]. cbn [fst] in T4.
  pose proof (tidy_step g4 (lvar [2; 3] [1]) T4 I) as T5. destruct (lgr_step g4 (lvar [2; 3] [1])) as [g5 x5]. cbn [fst] in T5.
  pose proof (tidy_step g5 (lvarw [1] [2; 3] (Some "r")) T5 I) as T6. destruct (lgr_step g5 (lvarw [1] [2; 3] (Some "r"))) as [g6 x6]. cbn [fst] in T6.
  exact T6.
Qed.
Lemma stat_values : let s := generate_stats (lgr_of stat_ops) in
  st_codepoints s = 7 /\ st_ranges s = 1 /\ st_sequences s = 1 /\ st_mappings s = 2 /\
  dget ostring_eqb (Some "blocked") (st_by_type s) = Some 3 /\ dget String.eqb "t" (st_by_tag s) = Some 5.
Proof. vm_compute. repeat split. Qed.
(** Deleting one member of a range leaves the statistics counting it. *)
Lemma stats_stale : exists g es, lgr_reachable g /\ enumerates (lg_rep g) es /\
  st_codepoints (generate_stats g) <> N.of_nat (length es).
Proof.
  set (ops := [LAddRange 1 3 None [] [] None None None false false; LDelCp [2]]).
  exists (lgr_of ops), (all_chars (lg_rep (lgr_of ops))). split; [apply lgr_of_reachable|]. split.
  - apply all_chars_enumerates. apply lgr_reachable_wf. apply lgr_of_reachable.
  - vm_compute. discriminate.
Qed.
(** An entry exists for every enumeration: the hypothesis is always met. *)
Lemma enumeration_exists : forall g, lgr_reachable g -> exists es, enumerates (lg_rep g) es.
Proof. intros g H. exists (all_chars (lg_rep g)). apply all_chars_enumerates. apply lgr_reachable_wf. exact H. Qed.
(** Per-tag count as the number of entries carrying the tag. *)
Lemma countN_nodup : forall t l, NoDup l -> countN (String.eqb t) l = if memb String.eqb t l then 1 else 0.
Proof.
  intros t l H. induction H as [|x l Hx Hl IH]; [reflexivity|]. unfold countN in *. cbn [filter]. 
  destruct (String.eqb_spec t x) as [E|E].
  - subst x. cbn [length]. rewrite Nat2N.inj_succ, IH. assert (M : memb String.eqb t l = false) by (apply (memb_false _ _ string_eqb_iff); exact Hx).
    rewrite M. assert (M2 : memb String.eqb t (t :: l) = true) by (apply (memb_In _ _ string_eqb_iff); left; reflexivity). rewrite M2. reflexivity.
  - rewrite IH. destruct (memb String.eqb t l) eqn:M.
    + assert (M2 : memb String.eqb t (x :: l) = true) by (apply (memb_In _ _ string_eqb_iff); right; apply (memb_In _ _ string_eqb_iff); exact M). rewrite M2. reflexivity.
    + assert (M2 : memb String.eqb t (x :: l) = false); [|rewrite M2; reflexivity].
      apply (memb_false _ _ string_eqb_iff). intros [H1|H1]; [congruence|]. apply (memb_false _ _ string_eqb_iff) in M. contradiction.
Qed.
Theorem stats_tags_tidy : forall g es t, tag_tidy g -> enumerates (lg_rep g) es ->
  dget String.eqb t (st_by_tag (generate_stats g)) = counted (countN (fun c => memb String.eqb t (ch_tags c)) es).
Proof.
  intros g es t Ht He. destruct (stats_spec g es (tag_tidy_tidy g Ht) He) as [_ [_ [_ [_ [_ [_ H]]]]]]. rewrite H. f_equal.
  rewrite countN_flat, <- sumN_bool. apply sumN_ext. intros c Hc. apply countN_nodup.
  destruct (tag_tidy_inv g Ht) as [Ha _]. apply He in Hc. rewrite lookup_lk in Hc. apply (Ha _ _ Hc).
Qed.
