(** Labels made of a code point that completing the variants has brought in. *)
From Coq Require Import Permutation.
From Verif Require Import Base BaseFacts CharModel RepSpec RepProofs VariantProofs LgrModel LgrSpec LgrProofs LgrReach LgrInv LgrRefs LgrFinal Rfc7940Model
  ValidateModel ValidateSpec ValidateProofs ValidateFinal PopulateModel PopulateSpec PopulateProofs PopulateSteps PopulateFinal
  CompareModel CompareProofs HarmonizeModel HarmonizeSpec HarmonizeProofs HarmonizeFinal HarmonizeKeep HarmonizeCopy HarmonizeWitness
  ActionModel ActionSpec LabelModel LabelSpec LabelProofs LabelElig LabelFinal VerdictSpec VerdictProofs VerdictKeep.
Open Scope string_scope.
Open Scope list_scope.

Definition foreign : option string := Some "out-of-repertoire".
Lemma default_valid : forall rm label ds only, (forall t, In t ds -> t = foreign) -> decided_by rm [] label ds only (mkAction "valid" None None None None None) 4.
Proof.
  intros rm label ds only H. split; [reflexivity|]. split; [split; exact I|]. intros j b J1 J2 [_ T].
  destruct j as [|[|[|[|j]]]]; [| | | |lia]; cbn in J2; injection J2 as <-; unfold variant_condition in T; cbn [a_any a_all a_only] in T.
  1-3: destruct T as [d [T1 [s [T2 T3]]]]; apply H in T1; rewrite T2 in T1; unfold foreign in T1; injection T1 as ->; destruct T3 as [T3|[]]; discriminate.
  destruct T as [T0 T]. destruct ds as [|d ds]; [congruence|]. destruct (T d (or_introl eq_refl)) as [s [T2 T3]]. pose proof (H d (or_introl eq_refl)) as E. rewrite T2 in E. unfold foreign in E. injection E as ->.
  destruct T3 as [T3|[]]; discriminate.
Qed.
Lemma occurs_single : forall x i c, c <> [] -> occurs_at [x] i c -> i = 0%nat /\ c = [x].
Proof.
  intros x i c N [pre [post [E L]]]. destruct pre as [|y pre].
  - cbn in L, E. split; [congruence|]. destruct c as [|y [|z c]]; [congruence| |discriminate]. injection E as E _. subst. reflexivity.
  - injection E as _ E. destruct pre; [|discriminate]. destruct c; [congruence|discriminate].
Qed.
(** A code point under no rule, mapped to itself at most as a foreign one, is a
    valid label. *)
Lemma single_valid : forall r x ch, reachable r -> lookup r [x] = Some ch -> ch_when ch = None -> ch_not_when ch = None ->
  (forall v, mapping r [x] [x] v -> v_type v = foreign) ->
  forall rm, exists e, test_label_eligible rm r [] [x] false = Ok e /\ el_ok e = true /\ el_disp e = Some "valid".
Proof.
  intros r x ch R L W NW V rm. assert (Ec : ch_cp ch = [x]) by (rewrite lookup_lk in L; exact (lk_cp _ _ _ L)).
  destruct (test_label_eligible_spec rm r [] [x] false R ltac:(discriminate)) as [e [chars [inv [T1 [T2 [T3 [T4 T5]]]]]]].
  exists e. split; [exact T1|].
  assert (Ap : forall i c, applies rm r [x] i c -> i = 0%nat /\ c = ch).
  { intros i c [A1 [A2 _]]. destruct (occurs_single x i (ch_cp c) (entry_nonempty r c A1) A2) as [-> A3]. split; [reflexivity|]. unfold entry in A1. rewrite A3 in A1. congruence. }
  assert (M : longest_match rm r [x] 0 [ch] []).
  { apply lm_take.
    - split; [unfold entry; rewrite Ec; exact L|]. split; [exists [], []; rewrite Ec; auto|]. unfold context_holds. rewrite W, NW. exact I.
    - intros c Hc. destruct (Ap _ _ Hc) as [_ ->]. auto.
    - rewrite Ec. apply (lm_end rm r [x]). }
  destruct (match_unique _ _ _ _ _ _ M R _ _ T2) as [_ F]. assert (inv = []) by (inversion F; reflexivity). subst inv.
  destruct T5 as [[T5 _]|[_ [ds [only [a [i [D1 [_ [D3 [D4 [_ [D6 _]]]]]]]]]]]]; [congruence|].
  assert (Dd : forall t, In t ds -> t = foreign).
  { intros t Ht. apply D1 in Ht. destruct Ht as [_ [k [c [v [H1 [[H2 [H3 _]] <-]]]]]]. destruct (Ap _ _ H1) as [_ ->]. apply V. exists ch. rewrite <- Ec. split; [rewrite Ec; exact L|]. split; [exact H2|congruence]. }
  destruct (decided_unique _ _ _ _ _ _ _ _ _ D3 (default_valid rm [x] ds only Dd)) as [-> _]. split; [apply D6; discriminate|exact D4].
Qed.
Theorem populate_new_valid : forall g g' o x, lgr_reachable g -> populate g = (g', o) -> lookup (lg_rep g) [x] = None -> lookup (lg_rep g') [x] <> None ->
  forall rm, exists e, test_label_eligible rm (lg_rep g') [] [x] false = Ok e /\ el_ok e = true /\ el_disp e = Some "valid".
Proof.
  intros g g' o x Hre E N H. destruct (lookup (lg_rep g') [x]) as [ch|] eqn:L; [|congruence].
  destruct (populate_respects g g' o Hre E) as [R [_ [_ [_ [_ [_ [_ [_ [K _]]]]]]]]]. destruct (K [x] ch L N) as [[_ [_ [_ [_ [_ [W NW]]]]]] _].
  apply (single_valid _ x ch); [apply lgr_reachable_rep; exact R|exact L|exact W|exact NW|]. intros v Hv. pose proof (populate_selves g Hre [x] v) as S. rewrite E in S.
  apply S in Hv. destruct Hv as [c [C _]]. congruence.
Qed.
Theorem harmonize_new_valid : forall order g1 g2 h1 h2 rs x, rearranges order -> tidy g1 -> tidy g2 -> harmonize order g1 g2 None = Ok (h1, h2, rs) ->
  lookup (lg_rep g1) [x] = None -> lookup (lg_rep h1) [x] <> None ->
  forall rm, exists e, test_label_eligible rm (lg_rep h1) [] [x] false = Ok e /\ el_ok e = true /\ el_disp e = Some "valid".
Proof.
  intros order g1 g2 h1 h2 rs x Po T1 T2 E N H. destruct (lookup (lg_rep h1) [x]) as [ch|] eqn:L; [|congruence].
  destruct (harmonize_respects order g1 g2 h1 h2 rs Po T1 T2 E) as [Rs _].
  assert (C : ch_when ch = None /\ ch_not_when ch = None) by (destruct (re_new _ _ _ Rs [x] ch N L) as [[_ K]|[_ K]]; destruct K as [_ [_ [_ [_ [_ [W NW]]]]]]; auto).
  unfold harmonize, harmonize_copies in E. pose proof (tidy_copy _ T1) as U1. pose proof (tidy_copy _ T2) as U2.
  destruct (expanded_ok _ U1) as [e1 [E1 S1]]. destruct (expanded_ok _ U2) as [e2 [E2 S2]]. rewrite E1, E2 in E. cbn [finished bind option_map] in E. destruct rs as [r1 r2].
  destruct (expanded_harmonized order e1 e2 h1 h2 r1 r2 Po (spelled_expanded _ _ S1) (spelled_expanded _ _ S2) E) as [x1 [x2 [cs [_ [M1 [_ [P1 _]]]]]]].
  apply (single_valid _ x ch); [|exact L|apply C|apply C|].
  - apply lgr_reachable_rep. apply (populate_respects x1 h1 _ (proj1 (m_exp _ _ _ _ M1)) P1).
  - intros v Hv. pose proof (populate_selves x1 (proj1 (m_exp _ _ _ _ M1)) [x] v) as S. rewrite P1 in S. apply S in Hv. apply (m_map _ _ _ _ M1) in Hv.
    destruct Hv as [Hv|[[_ [_ [Hv _]]]|[_ [_ [-> _]]]]]; [|congruence|reflexivity].
    apply (spelled_mapping _ _ [x] [x] v S1) in Hv. destruct Hv as [c [Hc _]]. cbn [lgr_copy lg_rep] in Hc. congruence.
Qed.

(** ** Samples *)
(** A code point mapped to itself (blocked under a rule when the label has two
    of it), with a one-way variant to a code point outside of the LGR. *)
Definition verdict_ops : list lgr_op :=
  [lcp [1]; lcp [2]; LAddVariant [1] [1] (Some "invalid") (Some "twice") None None [] None false false; LAddVariant [1] [3] (Some "allocatable") None None None [] None false false;
   lvar [2] [1]].
Definition twice : rule_oracle := fun _ label _ => Nat.leb 2 (length (filter (N.eqb 1) label)).
Definition verdict_of (rm : rule_oracle) (g : lgr) (label : cps) : option (bool * option string * Z) :=
  match test_label_eligible rm (lg_rep g) [] label false with Ok e => Some (el_ok e, el_disp e, el_idx e) | Raise _ => None end.
Lemma avoids_single : forall r r' label, (forall c, lookup r' c <> None -> lookup r c = None -> exists x, In x c /\ ~ In x label) -> avoids r r' label.
Proof.
  intros r r' label H c N K [pre [post E]]. destruct (H c K N) as [x [X1 X2]]. apply X2. rewrite E. apply in_or_app. right. apply in_or_app. left. exact X1.
Qed.
Lemma verdict_sample : let g := lgr_of verdict_ops in let g' := fst (populate g) in
  lgr_reachable g /\ snd (populate g) = Ok tt /\ g' <> g /\ avoids (lg_rep g) (lg_rep g') [1; 2] /\ avoids (lg_rep g) (lg_rep g') [1; 2; 1] /\
  verdict_of twice g [1; 2] = Some (true, Some "valid", 4%Z) /\ verdict_of twice g' [1; 2] = Some (true, Some "valid", 4%Z) /\
  verdict_of twice g [1; 2; 1] = Some (false, Some "invalid", 0%Z) /\ verdict_of twice g' [1; 2; 1] = Some (false, Some "invalid", 0%Z).
Proof.
  cbv zeta. split; [apply lgr_of_reachable|]. split; [vm_compute; reflexivity|]. split; [vm_compute; discriminate|].
  assert (K : forall c, lookup (lg_rep (fst (populate (lgr_of verdict_ops)))) c <> None -> lookup (lg_rep (lgr_of verdict_ops)) c = None -> c = [3]).
  { intros c H1 H2. destruct (lookup (lg_rep (fst (populate (lgr_of verdict_ops)))) c) as [ch|] eqn:L; [|congruence].
    assert (Hr : lgr_reachable (fst (populate (lgr_of verdict_ops)))) by (apply (populate_fine (lgr_of verdict_ops)); split; [apply lgr_of_reachable|apply selves_refl]).
    rewrite lookup_lk in L. pose proof (lk_cp _ _ _ L) as Ec.
    assert (Hi : In ch (all_chars (lg_rep (fst (populate (lgr_of verdict_ops)))))) by (apply in_all_chars_lk; [apply (lgr_reachable_wf _ Hr)|]; rewrite Ec; exact L).
    apply (in_map ch_cp) in Hi. rewrite Ec in Hi. clear -Hi H2. vm_compute in Hi. destruct Hi as [<-|[<-|[<-|[]]]]; [exfalso; vm_compute in H2; discriminate|exfalso; vm_compute in H2; discriminate|reflexivity]. }
  split; [apply avoids_single; intros c H1 H2; rewrite (K c H1 H2); exists 3; split; [left; reflexivity|intros [H|[H|[]]]; discriminate]|].
  split; [apply avoids_single; intros c H1 H2; rewrite (K c H1 H2); exists 3; split; [left; reflexivity|intros [H|[H|[H|[]]]]; discriminate]|].
  split; [vm_compute; reflexivity|]. split; [vm_compute; reflexivity|]. split; vm_compute; reflexivity.
Qed.
(** Populating makes a code point outside of the LGR eligible. *)
Lemma new_eligible : exists g g' label e e', lgr_reachable g /\ populate g = (g', Ok tt) /\
  test_label_eligible twice (lg_rep g) [] label false = Ok e /\ el_ok e = false /\ el_invalid e = [(3, None)] /\
  test_label_eligible twice (lg_rep g') [] label false = Ok e' /\ el_ok e' = true /\ el_disp e' = Some "valid".
Proof.
  exists (lgr_of verdict_ops), (fst (populate (lgr_of verdict_ops))), [3]. eexists. eexists. split; [apply lgr_of_reachable|]. split; [vm_compute; reflexivity|].
  split; [vm_compute; reflexivity|]. split; [reflexivity|]. split; [reflexivity|]. split; [vm_compute; reflexivity|]. split; reflexivity.
Qed.
(** So does harmonizing, although it marks the code point as out of the
    repertoire. *)
Lemma foreign_eligible : exists g1 g2 h1 h2 rs label e e', tidy g1 /\ tidy g2 /\ harmonize as_is g1 g2 None = Ok (h1, h2, rs) /\
  test_label_eligible twice (lg_rep g1) [] label false = Ok e /\ el_ok e = false /\
  (exists v, mapping (lg_rep h1) label label v /\ v_type v = Some "out-of-repertoire") /\
  test_label_eligible twice (lg_rep h1) [] label false = Ok e' /\ el_ok e' = true /\ el_disp e' = Some "valid".
Proof.
  destruct (harmonize as_is (lgr_of first_ops) (lgr_of second_ops) None) as [[[h1 h2] rs]|] eqn:E; [|vm_compute in E; discriminate].
  exists (lgr_of first_ops), (lgr_of second_ops), h1, h2, rs, [3].
  vm_compute in E. injection E as <- <- <-. eexists. eexists. split; [apply sample_meets|]. split; [apply sample_meets|]. split; [vm_compute; reflexivity|].
  split; [vm_compute; reflexivity|]. split; [reflexivity|]. split.
  - exists (outside_variant [3]). split; [|reflexivity]. eexists. split; [vm_compute; reflexivity|]. split; [vm_compute; tauto|reflexivity].
  - split; [vm_compute; reflexivity|]. split; reflexivity.
Qed.
