(** What populate_lgr guarantees. *)
From Verif Require Import Base BaseFacts CharModel RepSpec RepProofs VariantProofs IterProofs VarSetProofs RefModel LgrModel LgrSpec LgrProofs
  LgrReach LgrInv LgrRefs Rfc7940Model ValidateModel ValidateSpec ValidateProofs ValidateFinal PopulateModel PopulateSpec PopulateProofs PopulateSteps
  PopulateLoop PopulateBalance.
Open Scope string_scope.
Open Scope list_scope.

Theorem populate_completes : forall g g', lgr_reachable g -> populate g = (g', Ok tt) ->
  symmetric (lg_rep g') /\ transitive (lg_rep g') /\
  (forall a, lookup (lg_rep g') a <> None <-> mentioned (lg_rep g) a) /\
  (forall a b, has_target (lg_rep g') a b <->
     (a <> b /\ linked (lg_rep g) a b) \/ (a = b /\ (has_target (lg_rep g) a a))).
Proof.
  intros g g' Hre E. pose proof (populate_outcome g Hre) as H. rewrite E in H. destruct H as [HI [Hk [[_ Hc] [Hkk [Hs Ht]]]]]. cbn [fst snd] in *.
  split; [exact Hs|]. split; [exact Ht|]. split.
  - intro a. rewrite lookup_lk. split.
    + intro Ha. destruct (lk (lg_rep g) a) as [c|] eqn:El; [left; rewrite lookup_lk; congruence|].
      destruct (lk (lg_rep g') a) as [c|] eqn:El'; [|congruence]. apply (i_new _ _ HI a c El' El).
    + intros [Ha|[x Hx]].
      * rewrite lookup_lk in Ha. eapply keeps_lk; eauto.
      * apply (Hc x). eapply kept_target; eauto.
  - intros a b. split.
    + intro H. destruct (i_tgt _ _ HI a b H) as [H0|H0]; [|left; exact H0].
      destruct (cps_eq_dec a b) as [Eab|Eab]; [right; subst b; auto|left; split; [exact Eab|apply target_linked; exact H0]].
    + intros [[Hne Hl]|[Eab H]].
      * destruct (linked_closed (lg_rep g) (lg_rep g') Hs Ht (fun x y => kept_target _ _ _ x y Hkk) a b Hl) as [H|H]; [contradiction|exact H].
      * subst b. eapply kept_target; eauto.
Qed.

(** Whatever the outcome. *)
Theorem populate_respects : forall g g' o, lgr_reachable g -> populate g = (g', o) ->
  lgr_reachable g' /\
  (forall e, o = Raise e -> is_lgr_exception e = true) /\
  lg_db g' = lg_db g /\ lg_raise g' = lg_raise g /\ lg_refs g' = lg_refs g /\ lg_tags g' = lg_tags g /\
  rep_ranges (lg_rep g') = rep_ranges (lg_rep g) /\
  (forall a ch, lookup (lg_rep g) a = Some ch -> exists ch', lookup (lg_rep g') a = Some ch' /\ same_entry ch ch') /\
  (forall a ch', lookup (lg_rep g') a = Some ch' -> lookup (lg_rep g) a = None -> same_entry (bare a) ch' /\ mentioned (lg_rep g) a) /\
  (forall a b, has_target (lg_rep g') a b -> has_target (lg_rep g) a b \/ (a <> b /\ linked (lg_rep g) a b)) /\
  (forall a b w, mapping (lg_rep g') a b w -> (exists v, mapping (lg_rep g) a b v /\ alike v w) \/ plain_blocked w).
Proof.
  intros g g' o Hre E. pose proof (populate_outcome g Hre) as H. rewrite E in H. destruct H as [HI [Hk Ho]]. cbn [fst snd] in *.
  split; [apply (i_re _ _ HI)|]. split.
  { intros e He. subst o. apply Ho. }
  destruct Hk as [[R1 [R2 [R3 [R4 R5]]]] Hk]. do 5 (split; [assumption|]). split.
  { intros a ch Ha. rewrite lookup_lk in Ha. destruct (Hk a ch Ha) as [c' [H1 H2]]. exists c'. rewrite lookup_lk. auto. }
  split; [|split; [apply (i_tgt _ _ HI)|apply (i_var _ _ HI)]].
  intros a ch' H1 H2. rewrite lookup_lk in H1, H2. apply (i_new _ _ HI a ch' H1 H2).
Qed.

(** The variants that were there, on success. *)
Theorem populate_keeps_variants : forall g g', lgr_reachable g -> neat g -> populate g = (g', Ok tt) ->
  forall a b v, mapping (lg_rep g) a b v -> exists w, mapping (lg_rep g') a b w /\ alike v w /\ (w = v \/ unconditional v).
Proof.
  intros g g' Hre Hn E. pose proof (populate_outcome g Hre) as H. rewrite E in H. destruct H as [_ [_ [_ [Hkk _]]]]. apply (proj2 (proj2 Hkk)). exact Hn.
Qed.
Theorem populate_succeeds : forall g, lgr_reachable g -> populatable g -> exists g', populate g = (g', Ok tt).
Proof.
  intros g Hre Hp. pose proof (populate_outcome g Hre) as H. destruct (populate g) as [g' [u|e]].
  - exists g'. destruct u. reflexivity.
  - exfalso. destruct H as [_ [_ [_ H]]]. contradiction.
Qed.

(** ** Nothing to do *)
Section Idle.
  Variable f : lgr -> cps -> variant -> lgr * res unit.
  Variable g : lgr.
  Hypothesis Hre : lgr_reachable g.
  Hypothesis Hf : forall a v, mapping (lg_rep g) a (v_cp v) v -> f g a v = (g, Ok tt).
  Lemma each_variant_idle : forall a l, (forall v, In v l -> mapping (lg_rep g) a (v_cp v) v) -> each_variant f g a l = (g, Ok tt).
  Proof. intros a l. induction l as [|v l IH]; intro H; [reflexivity|]. cbn [each_variant]. rewrite (Hf a v (H v (or_introl eq_refl))). apply IH. intros w Hw. apply H. right. exact Hw. Qed.
  Lemma each_char_idle : forall l, (forall c, In c l -> lk (lg_rep g) (ch_cp c) <> None) -> each_char f g l = (g, Ok tt).
  Proof.
    intro l. induction l as [|c l IH]; intro H; [reflexivity|]. cbn [each_char].
    pose proof (H c (or_introl eq_refl)) as Hc. destruct (lk (lg_rep g) (ch_cp c)) as [cur|] eqn:E; [|congruence].
    rewrite get_char_lk by (intro Hx; rewrite Hx in E; discriminate). rewrite E.
    rewrite each_variant_idle; [apply IH; intros d Hd; apply H; right; exact Hd|].
    intros v Hv. apply mapping_lk. exists cur. auto.
  Qed.
  Lemma each_key_idle : forall ks last, each_key f g last ks = (g, Ok tt).
  Proof.
    induction ks as [|k ks IH]; intro last; [reflexivity|]. cbn [each_key].
    set (last1 := match last with Some lc => if N.ltb lc k then None else Some lc | None => None end).
    pose proof (lgr_reachable_wf g Hre) as Hwf.
    pose proof (iter_bucket_sub (isort len_leb (bucket (lg_rep g) k)) last1) as Hsub.
    destruct (iter_bucket last1 (isort len_leb (bucket (lg_rep g) k))) as [last' out]. cbn [snd] in Hsub.
    rewrite each_char_idle; [apply IH|]. intros c Hc. apply Hsub in Hc.
    assert (Hin : In c (all_chars (lg_rep g))).
    { apply all_chars_bucket; [exact Hwf|]. exists k. apply isort_In in Hc. exact Hc. }
    apply in_all_chars_lk in Hin; [|exact Hwf]. congruence.
  Qed.
  Lemma each_mapping_idle : each_mapping f g = (g, Ok tt).
  Proof. apply each_key_idle. Qed.
End Idle.
Theorem populate_idle : forall g, lgr_reachable g -> symmetric (lg_rep g) -> transitive (lg_rep g) -> rules_mirrored (lg_rep g) ->
  populate g = (g, Ok tt).
Proof.
  intros g Hre Hs Ht Hm. unfold populate. rewrite each_mapping_idle; [|exact Hre|].
  2:{ intros a v Hv. unfold add_missing. destruct (Hs a (v_cp v)) as [Hp _]; [exists v; exact Hv|]. rewrite lookup_lk in Hp.
      pose proof Hv as Hv'. apply mapping_lk in Hv'. destruct Hv' as [ca [Ha [Hva _]]].
      destruct (lk (lg_rep g) (v_cp v)) as [cb|] eqn:E; [|congruence].
      rewrite (get_variants_present g Hre _ cb E). reflexivity. }
  cbn [andthen].
  assert (Hb : balance (rep_len (lg_rep g) * rep_len (lg_rep g)) g = (g, Ok tt)).
  { pose proof (balanced_iff g Hre Hs Ht) as Hb. destruct (rep_len (lg_rep g) * rep_len (lg_rep g))%nat; cbn [balance]; rewrite Hb; reflexivity. }
  rewrite Hb. cbn [andthen]. destruct (passed_symmetry g false Hre) as [ok [E [_ [_ H]]]]. rewrite E. rewrite (H Hs (or_intror Hm)). reflexivity.
Qed.

(** ** Samples *)
(** A chain 1 -> 2 -> 3 4 whose end is not in the LGR, with a rule, a range
    left alone and a variant with a type of its own. *)
Definition chain_ops : list lgr_op :=
  [lcp [1]; lcp [2]; LAddRange 10 12 None [] [] None None None false false; lvarw [1] [2] (Some "r");
   LAddVariant [2] [3; 4] (Some "allocatable") None None None [] None false false].
Definition targets_of (g : lgr) (a : cps) : list cps :=
  match rep_get_char (lg_rep g) a with Ok ch => map v_cp (get_variants ch) | Raise _ => [] end.
Lemma chain_result : let '(g', o) := populate (lgr_of chain_ops) in
  o = Ok tt /\ targets_of g' [1] = [[2]; [3; 4]] /\ targets_of g' [2] = [[1]; [3; 4]] /\ targets_of g' [3; 4] = [[1]; [2]] /\
  g' <> lgr_of chain_ops /\ fst (populate g') = g'.
Proof. vm_compute. repeat split. discriminate. Qed.
Definition populatableb (g : lgr) : bool :=
  forallb (fun ch => forallb (fun v =>
    match lk (lg_rep g) (v_cp v) with Some c => negb (is_range c) | None => true end &&
    match v_when v, v_not_when v with Some _, Some _ => false | _, _ => true end &&
    match v_refs v with [] => true | _ => false end &&
    negb (ostring_eqb (v_when v) (Some "")) && negb (ostring_eqb (v_not_when v) (Some "")))%bool (get_variants ch)) (all_chars (lg_rep g)).
Lemma populatableb_spec : forall g, lgr_reachable g -> populatableb g = true -> populatable g /\ neat g.
Proof.
  intros g Hre H. unfold populatableb in H. rewrite forallb_forall in H.
  assert (Hm : forall a b v, mapping (lg_rep g) a b v -> (forall c, lk (lg_rep g) b = Some c -> is_range c = false) /\
     (v_when v = None \/ v_not_when v = None) /\ v_refs v = [] /\ v_when v <> Some "" /\ v_not_when v <> Some "").
  { intros a b v Hv. apply mapping_lk in Hv. destruct Hv as [ch [H1 [H2 H3]]]. subst b.
    assert (Hin : In ch (all_chars (lg_rep g))) by (eapply lk_in_all; [apply lgr_reachable_wf; exact Hre|exact H1]).
    specialize (H ch Hin). rewrite forallb_forall in H. specialize (H v H2). repeat rewrite andb_true_iff in H. destruct H as [[[[A B] C] D] E].
    apply negb_true_iff in D, E. split; [|split; [|split; [|split]]].
    - intros c Hc. rewrite Hc in A. apply negb_true_iff. exact A.
    - destruct (v_when v), (v_not_when v); auto; discriminate.
    - destruct (v_refs v); [reflexivity|discriminate].
    - intro X. rewrite X in D. discriminate.
    - intro X. rewrite X in E. discriminate. }
  split; [split|].
  - intros a b ch [v Hv] Hb. rewrite lookup_lk in Hb. apply (proj1 (Hm a b v Hv) ch Hb).
  - intros a b v Hv. destruct (Hm a b v Hv) as [_ [H1 [H2 _]]]. rewrite H2. split; [exact H1|]. split; [constructor|intros x []].
  - intros a b v Hv. destruct (Hm a b v Hv) as [_ [_ [_ [H1 H2]]]]. auto.
Qed.
Lemma chain_populatable : populatable (lgr_of chain_ops) /\ neat (lgr_of chain_ops).
Proof. apply populatableb_spec; [apply lgr_of_reachable|vm_compute; reflexivity]. Qed.

(** A variant of an entry is a member of a range. *)
Definition into_range : list lgr_op := [lcp [1]; LAddRange 10 12 None [] [] None None None false false; lvar [1] [10]].
Lemma range_target_fails : exists g e, lgr_reachable g /\ snd (populate g) = Raise e.
Proof. exists (lgr_of into_range). eexists. split; [apply lgr_of_reachable|]. vm_compute. reflexivity. Qed.

(** The reverse variant carries a reference twice (forced): it is deleted, then
    cannot be added again with the rule. *)
Definition twice_ref : list lgr_op :=
  [LAddReference "v" None None; lcp [1]; lcp [2]; lvarw [1] [2] (Some "r");
   LAddVariant [2] [1] (Some "allocatable") None None None ["0"; "0"] None false true].
Lemma mapping_lost : exists g a b, lgr_reachable g /\ has_target (lg_rep g) a b /\ ~ has_target (lg_rep (fst (populate g))) a b.
Proof.
  exists (lgr_of twice_ref), [2], [1]. split; [apply lgr_of_reachable|]. split.
  - apply targetb_iff. vm_compute. reflexivity.
  - intro H. apply targetb_iff in H. vm_compute in H. discriminate.
Qed.

(** Beside a variant without rule stands one whose rule is the empty string:
    the first is deleted and the second copied. *)
Definition blank_rule : list lgr_op :=
  [lcp [1]; lcp [2]; lvarw [1] [2] (Some "r");
   LAddVariant [2] [1] (Some "allocatable") (Some "") None None [] None false false;
   LAddVariant [2] [1] (Some "special") None None None [] None false false].
(** The two directions carry different rules: strict symmetry is not reached. *)
Definition clash : list lgr_op := [lcp [1]; lcp [2]; lvarw [1] [2] (Some "r"); lvarw [2] [1] (Some "s")].
Lemma rules_clash : exists g g', lgr_reachable g /\ populate g = (g', Ok tt) /\ ~ rules_mirrored (lg_rep g').
Proof.
  exists (lgr_of clash), (fst (populate (lgr_of clash))). split; [apply lgr_of_reachable|]. split; [vm_compute; reflexivity|]. intro H.
  assert (E : fst (populate (lgr_of clash)) = lgr_of clash) by (vm_compute; reflexivity). rewrite E in H.
  destruct (check_symmetry_decides_rules (lgr_of clash) (lgr_of_reachable clash)) as [_ D]. destruct D as [rs [is D]].
  - split; [|exact H]. apply check_symmetry_decides; [apply lgr_of_reachable|]. vm_compute. eexists. eexists. reflexivity.
  - vm_compute in D. discriminate.
Qed.
Lemma type_lost : exists g g' a b v, lgr_reachable g /\ populate g = (g', Ok tt) /\ mapping (lg_rep g) a b v /\
  forall w, mapping (lg_rep g') a b w -> v_type w <> v_type v.
Proof.
  exists (lgr_of blank_rule), (fst (populate (lgr_of blank_rule))), [2], [1], (mkVariant [1] (Some "special") None None None []).
  split; [apply lgr_of_reachable|]. split; [vm_compute; reflexivity|].
  assert (H0 : exists ch, lk (lg_rep (lgr_of blank_rule)) [2] = Some ch /\ In (mkVariant [1] (Some "special") None None None []) (get_variants ch)).
  { eexists. split; [vm_compute; reflexivity|]. vm_compute. auto. }
  assert (H1 : exists ch, lk (lg_rep (fst (populate (lgr_of blank_rule)))) [2] = Some ch /\ forallb (fun w => negb (ostring_eqb (v_type w) (Some "special"))) (get_variants ch) = true).
  { eexists. split; vm_compute; reflexivity. }
  split.
  - destruct H0 as [ch [H2 H3]]. apply mapping_lk. exists ch. auto.
  - intros w Hw. apply mapping_lk in Hw. destruct H1 as [ch [H2 H3]]. destruct Hw as [ch' [W1 [W2 W3]]]. rewrite H2 in W1. injection W1 as W1. subst ch'.
    rewrite forallb_forall in H3. specialize (H3 w W2). apply negb_true_iff in H3. cbn [v_type]. intro X. rewrite X in H3. discriminate.
Qed.
