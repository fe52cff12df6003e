From Coq Require Import Permutation.
From Verif Require Import Base BaseFacts CharModel RepSpec RepProofs VariantProofs IterProofs RefModel RefSpec ActionModel LgrModel LgrSpec LgrProofs LgrReach.
From Verif Require Import ValidateModel ValidateSpec ValidateProofs ValidateFinal SerialSpec SerialFinal LgrInv LgrFinal CompareSpec CompareWitness SerialWitness.
From Verif Require Import MergeModel MergeSpec MergeRefs MergeFold MergeFinal MergeContext MergeWitness MergeSucceedSpec MergeSucceed MergeSucceedWitness MergeAgree.
Open Scope string_scope.
Open Scope N_scope.
Open Scope list_scope.

(** ** Checks *)
Definition plainb (v : variant) : bool := match v_when v, v_not_when v with None, None => true | _, _ => false end.
Definition withinb (a b : list variant) : bool := forallb (fun v => existsb (fun u => cps_eqb (v_cp v) (v_cp u)) b) a.
Definition agreeb (x y : char) : bool :=
  match get_variants x, get_variants y with
  | [], _ | _, [] => true
  | a, b => forallb plainb a && forallb plainb b && (withinb a b || withinb b a)
  end%bool.
Definition agree_pair (a b : member) : bool :=
  forallb (fun ch => match lk (lg_rep (mb_lgr b)) (ch_cp ch) with Some x => agreeb ch x | None => true end) (all_chars (lg_rep (mb_lgr a))).
Definition agree (a b : member) : Prop := forall c, has_cp a c -> has_cp b c ->
  (forall d, ~ gives a c d) \/ (forall d, ~ gives b c d) \/ plainly_given a c /\ plainly_given b c /\ (all_given a b c \/ all_given b a c).
Lemma gives_lk : forall m c ch, lk (lg_rep (mb_lgr m)) c = Some ch -> forall b, gives m c b <-> exists v, In v (get_variants ch) /\ v_cp v = b.
Proof.
  intros m c ch H b. split.
  - intros [v M]. apply mapping_lk in M. destruct M as [x [X1 X2]]. assert (x = ch) by congruence. subst x. eauto.
  - intros [v M]. exists v. apply mapping_lk. exists ch. split; [exact H|exact M].
Qed.
Lemma plainb_sound : forall m c ch, lk (lg_rep (mb_lgr m)) c = Some ch -> forallb plainb (get_variants ch) = true -> plainly_given m c.
Proof.
  intros m c ch H F b v M. apply mapping_lk in M. destruct M as [x [X1 [X2 _]]]. assert (x = ch) by congruence. subst x. rewrite forallb_forall in F. specialize (F v X2).
  unfold plainb in F. destruct (v_when v), (v_not_when v); try discriminate. auto.
Qed.
Lemma withinb_sound : forall a b c x y, lk (lg_rep (mb_lgr a)) c = Some x -> lk (lg_rep (mb_lgr b)) c = Some y -> withinb (get_variants x) (get_variants y) = true -> all_given a b c.
Proof.
  intros a b c x y Hx Hy F d G. apply (gives_lk _ _ _ Hx) in G. destruct G as [v [V1 V2]]. unfold withinb in F. rewrite forallb_forall in F. specialize (F v V1). apply existsb_exists in F.
  destruct F as [u [U1 U2]]. apply cps_eqb_eq in U2. apply (gives_lk _ _ _ Hy). exists u. split; [exact U1|congruence].
Qed.
Lemma agree_pair_sound : forall a b, lgr_reachable (mb_lgr a) -> agree_pair a b = true -> agree a b.
Proof.
  intros a b R H c Ha Hb. pose proof (lgr_reachable_wf _ R) as W. unfold has_cp in *. rewrite lookup_lk in *.
  destruct (lk (lg_rep (mb_lgr a)) c) as [x|] eqn:Ea; [|congruence]. destruct (lk (lg_rep (mb_lgr b)) c) as [y|] eqn:Eb; [|congruence].
  unfold agree_pair in H. rewrite forallb_forall in H. specialize (H x (lk_in_all _ _ _ W Ea)). rewrite (lk_cp _ _ _ Ea), Eb in H. unfold agreeb in H.
  destruct (get_variants x) as [|v l] eqn:Ex.
  - left. intros d G. apply (gives_lk _ _ _ Ea) in G. rewrite Ex in G. destruct G as [? [[] _]].
  - destruct (get_variants y) as [|u k] eqn:Ey.
    + right. left. intros d G. apply (gives_lk _ _ _ Eb) in G. rewrite Ey in G. destruct G as [? [[] _]].
    + rewrite <- Ex, <- Ey in H. apply andb_true_iff in H. destruct H as [H H3]. apply andb_true_iff in H. destruct H as [H1 H2].
      right. right. split; [apply (plainb_sound _ _ _ Ea H1)|]. split; [apply (plainb_sound _ _ _ Eb H2)|]. apply orb_true_iff in H3.
      destruct H3 as [H3|H3]; [left; exact (withinb_sound a b c x y Ea Eb H3)|right; exact (withinb_sound b a c y x Eb Ea H3)].
Qed.
Lemma agree_variants : forall l, ForallOrdPairs agree l -> variants_agree l.
Proof.
  intros l H c m1 m2 rest P H1 H2. apply (pairs_perm _ agree l _) in P; auto.
  - inversion P as [|? ? Q _]; subst. inversion Q as [|? ? Q1 _]; subst. apply Q1; assumption.
  - intros a b X d Da Db. destruct (X d Db Da) as [Y|[Y|[Y1 [Y2 Y3]]]]; [auto|auto|]. right. right. split; [exact Y2|]. split; [exact Y1|]. tauto.
Qed.
Definition all_of (fld : char -> option string) (m : member) (t : string -> bool) : bool :=
  forallb (fun ch => match fld ch with Some n => t n | None => true end) (all_chars (lg_rep (mb_lgr m))).
Lemma all_of_sound : forall fld m t, lgr_reachable (mb_lgr m) -> all_of fld m t = true -> forall c n, fof fld m c = Some n -> t n = true.
Proof.
  intros fld m t R H c n E. unfold fof in E. rewrite lookup_lk in E. destruct (lk (lg_rep (mb_lgr m)) c) as [ch|] eqn:Ec; [|discriminate].
  unfold all_of in H. rewrite forallb_forall in H. specialize (H ch (lk_in_all _ _ _ (lgr_reachable_wf _ R) Ec)). rewrite E in H. exact H.
Qed.
Lemma starts_prefix : forall s n, starts s n -> String.prefix (s ++ "-") n = true.
Proof.
  intros s n [r ->]. apply prefix_iff. exists r. induction s as [|a s IH]; [reflexivity|]. cbn. f_equal. exact IH.
Qed.

(** ** Scripts agreeing on what they share *)
Definition dig_w (c : N) (w : option string) := LAddCp [c] None ["0"] [] w None None false false.
Definition both (a b : N) := [lvar [a] [b]; lvar [b] [a]].
Definition agree_a : member := mkMember ["A"] (lgr_of ([mref "first"; cp_r 1 []; cp_r 2 ["0"]; dig_w 9 (Some "digit")] ++ both 1 2)) None [] ["digit"] [].
Definition agree_b : member := mkMember ["B"] (lgr_of ([mref "second"; cp_r 1 ["0"]; cp_r 2 []; cp_r 3 []; dig_w 9 (Some "digit")] ++ both 1 2 ++ both 1 3 ++ both 2 3)) None [] ["digit"] [].
Definition agree_c : member := mkMember ["C"] (lgr_of ([mref "first"; cp_r 1 []; cp_w 4 (Some "final"); dig_w 9 None; cp_r 2 []] ++ both 1 2)) None [] ["final"] [].
Definition agreeing : list member := [agree_c; agree_a; agree_b].
Lemma agreeing_proper : forall m, In m agreeing -> proper (mb_lgr m).
Proof. intros m [<-|[<-|[<-|[]]]]; apply proper_of; vm_compute; reflexivity. Qed.
Lemma agreeing_reachable : forall m, In m agreeing -> lgr_reachable (mb_lgr m).
Proof. intros m Hm. apply tidy_reachable, proper_tidy, agreeing_proper, Hm. Qed.
Lemma agreeing_clear : forall fld, fld = ch_when \/ fld = ch_not_when -> unambiguous (fof fld) agreeing.
Proof.
  intros fld Hf. split.
  - intros m x c n Hm Hx E S. apply starts_prefix in S.
    assert (T : all_of fld x (fun n => negb (String.prefix (get_script m ++ "-") n)) = true).
    { destruct Hf as [-> | ->]; destruct Hm as [<-|[<-|[<-|[]]]]; destruct Hx as [<-|[<-|[<-|[]]]]; vm_compute; reflexivity. }
    apply (all_of_sound _ _ _ (agreeing_reachable x Hx) T) in E. rewrite S in E. discriminate.
  - intros m x rest P S. apply starts_prefix in S.
    assert (N : get_script m <> get_script x).
    { apply (Permutation_map get_script) in P. assert (D : NoDup (map get_script agreeing)) by (repeat constructor; cbn; intuition discriminate).
      apply (Permutation_NoDup P) in D. cbn in D. inversion D as [|? ? D1 _]; subst. intro K. apply D1. left. symmetry. exact K. }
    assert (Hm : In m agreeing) by (apply (Permutation_in _ (Permutation_sym P)); left; reflexivity).
    assert (Hx : In x agreeing) by (apply (Permutation_in _ (Permutation_sym P)); right; left; reflexivity).
    destruct Hm as [<-|[<-|[<-|[]]]]; destruct Hx as [<-|[<-|[<-|[]]]]; try (apply N; reflexivity); vm_compute in S; discriminate.
Qed.
Definition rule_list (fld : char -> option string) (m : member) : list (cps * string) :=
  flat_map (fun ch => match fld ch with Some n => [(ch_cp ch, n)] | None => [] end) (all_chars (lg_rep (mb_lgr m))).
Lemma rule_list_In : forall fld m c n, lgr_reachable (mb_lgr m) -> fof fld m c = Some n -> In (c, n) (rule_list fld m).
Proof.
  intros fld m c n R E. unfold fof in E. rewrite lookup_lk in E. destruct (lk (lg_rep (mb_lgr m)) c) as [ch|] eqn:Ec; [|discriminate].
  apply in_flat_map. exists ch. split; [exact (lk_in_all _ _ _ (lgr_reachable_wf _ R) Ec)|]. rewrite E, (lk_cp _ _ _ Ec). left. reflexivity.
Qed.
Definition same_listb (a b : list (cps * string)) : bool := forallb (fun x => forallb (fun y => negb (cps_eqb (fst x) (fst y)) || String.eqb (snd x) (snd y)) b)%bool a.
Lemma agreeing_same : forall fld, fld = ch_when \/ fld = ch_not_when -> same_rules (fof fld) agreeing.
Proof.
  intros fld Hf c m1 m2 n1 n2 H1 H2 E1 E2 _ _. apply (rule_list_In _ _ _ _ (agreeing_reachable m1 H1)) in E1. apply (rule_list_In _ _ _ _ (agreeing_reachable m2 H2)) in E2.
  assert (T : same_listb (rule_list fld m1) (rule_list fld m2) = true).
  { destruct Hf as [-> | ->]; destruct H1 as [<-|[<-|[<-|[]]]]; destruct H2 as [<-|[<-|[<-|[]]]]; vm_compute; reflexivity. }
  unfold same_listb in T. rewrite forallb_forall in T. specialize (T _ E1). cbn [fst snd] in T. rewrite forallb_forall in T. specialize (T _ E2). cbn [fst snd] in T.
  rewrite cps_eqb_refl in T. apply String.eqb_eq in T. exact T.
Qed.
Lemma agreeing_meet : (forall m, In m agreeing -> proper (mb_lgr m) /\ texts_once m /\ contexts_named m) /\ NoDup (map get_script agreeing) /\
  unambiguous when_of agreeing /\ unambiguous not_when_of agreeing /\ variants_agree agreeing /\ same_rules when_of agreeing /\ same_rules not_when_of agreeing.
Proof.
  split; [|split; [|split; [|split; [|split; [|split]]]]].
  - intros m Hm. split; [exact (agreeing_proper m Hm)|]. split; [|apply namedb_sound; [exact (agreeing_reachable m Hm)|]]; [apply onceb_sound|]; destruct Hm as [<-|[<-|[<-|[]]]]; vm_compute; reflexivity.
  - repeat constructor; cbn; intuition discriminate.
  - exact (agreeing_clear ch_when (or_introl eq_refl)).
  - exact (agreeing_clear ch_not_when (or_intror eq_refl)).
  - apply agree_variants. pose proof agreeing_reachable as R. unfold agreeing in *. repeat (apply FOP_cons || apply FOP_nil || apply Forall_cons || apply Forall_nil); (apply agree_pair_sound; [apply R; cbn; auto|vm_compute; reflexivity]).
  - exact (agreeing_same ch_when (or_introl eq_refl)).
  - exact (agreeing_same ch_not_when (or_intror eq_refl)).
Qed.
(** Several of them have something to say on the code points they share. *)
Lemma agreeing_shares : ~ one_speaks agreeing /\ when_of agree_a [9] = Some "digit" /\ when_of agree_b [9] = Some "digit" /\ gives agree_b [1] [3] /\ ~ gives agree_a [1] [3].
Proof.
  split; [|split; [|split; [|split]]].
  - intro H. destruct (H [9] agree_a agree_b [agree_c]) as [[X _]|[X _]]; try (vm_compute in X; discriminate); try (vm_compute; discriminate).
    unfold agreeing. change [agree_a; agree_b; agree_c] with ([agree_a; agree_b] ++ [agree_c]). apply (Permutation_cons_append [agree_a; agree_b] agree_c).
  - vm_compute. reflexivity.
  - vm_compute. reflexivity.
  - apply (gives_lk agree_b [1] (match lk (lg_rep (mb_lgr agree_b)) [1] with Some ch => ch | None => mkChar [] KChar None [] [] None None [] end)); [vm_compute; reflexivity|].
    vm_compute. eexists. split; [right; left; reflexivity|reflexivity].
  - intro H. apply (gives_lk agree_a [1] (match lk (lg_rep (mb_lgr agree_a)) [1] with Some ch => ch | None => mkChar [] KChar None [] [] None None [] end)) in H; [|vm_compute; reflexivity].
    vm_compute in H. destruct H as [v [[<-|[]] E]]. discriminate.
Qed.
(** One asking for another rule. *)
Definition agree_d : member := mkMember ["D"] (lgr_of [mref "first"; dig_w 9 (Some "final")]) None [] ["final"] [].
Lemma other_rule_stops : (exists st, merge_given agreeing = Ok st) /\ forall st, merge_given (agree_d :: agreeing) <> Ok st.
Proof. split; [vm_compute; eexists; reflexivity|]. intros st H. vm_compute in H. discriminate. Qed.
