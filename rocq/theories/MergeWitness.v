From Coq Require Import Permutation Ascii.
From Verif Require Import Base BaseFacts CharModel RepSpec RepProofs.
From Verif Require Import RefModel ActionModel LgrModel LgrSpec LgrProofs LgrReach LgrInv LgrRefs LgrFinal.
From Verif Require Import ValidateModel ValidateSpec ValidateProofs ValidateFinal PopulateModel PopulateFinal CompareModel HarmonizeModel HarmonizeWitness.
From Verif Require Import MergeModel MergeSpec MergeProofs MergeSteps MergeLoop MergeRefs MergeFold MergeFinal MergeContext MergePair.
Open Scope string_scope.
Open Scope list_scope.

Definition given {A} (l : list A) : list A := l.
Lemma given_order : forall A, any_order (@given A). Proof. intros A l. apply Permutation_refl. Qed.
Lemma rev_order : forall A, any_order (@rev A). Proof. intros A l. apply Permutation_sym, Permutation_rev. Qed.
Definition merge_given := merge_lgr_set given given.

(** ** Samples *)
Definition of_ops (script : string) (ops : list lgr_op) : member := mkMember [script] (lgr_of ops) None [] [] [].
Definition cp_r (c : N) (refs : list string) := LAddCp [c] None refs [] None None None false false.
Definition cp_w (c : N) (w : option string) := LAddCp [c] None [] [] w None None false false.
Definition mref (t : string) := LAddReference t None None.

(** Two scripts sharing code point 1; both have a reference "0", each its own. *)
Definition latin_ops : list lgr_op :=
  [mref "ISO 8859"; mref "CLDR"; LAddCp [1] (Some "one") ["1"] ["vowel"] (Some "final") None None false false;
   cp_r 2 ["0"; "1"]; lvar [1] [2]; lvar [2] [1]].
Definition greek_ops : list lgr_op :=
  [mref "ELOT 743"; LAddCp [1] None [] ["letter"] (Some "final") None None false false; cp_r 3 ["0"]; cp_r 4 [];
   LAddVariant [1] [3] (Some "allocatable") (Some "initial") None None ["0"] None false false; lvar [3] [1];
   LAddRange 20 22 None ["0"] [] None None None false false].
Definition latin : member := mkMember ["und-Latn"; "en"] (lgr_of latin_ops) None
  [mkAction "blocked" (Some "final") None None None None; mkAction "valid" None None None None None] ["final"; "leading-combining-mark"] ["vowels"].
Definition greek : member := mkMember ["und-Grek"] (lgr_of greek_ops) (Some (fun _ => ["sc:Grek"])) [] ["final"; "initial"] [].
Definition shown_char (g : lgr) (c : cps) : option (option string * list string * list string * option string * list (cps * option string)) :=
  match lookup (lg_rep g) c with
  | Some ch => Some (ch_comment ch, ch_refs ch, ch_tags ch, ch_when ch, map (fun v => (v_cp v, v_when v)) (get_variants ch))
  | None => None
  end.
Definition shown_merge (x : res merged) (cs : list cps) :=
  match x with
  | Ok st => Some (map (shown_char (mg_lgr st)) cs, map (fun kv => (fst kv, ref_value (snd kv))) (rm_refs (lg_refs (mg_lgr st))), mg_rules st, mg_classes st, List.length (mg_actions st))
  | Raise _ => None
  end.
Lemma sample_merge : shown_merge (merge_given [latin; greek]) [[1]; [2]; [3]; [4]; [21]] = Some (
  [Some (Some "one", ["1"], ["und-Grek-letter"; "sc:Grek"; "und-Latn-vowel"], Some "und-Latn-und-Grek-final", [([2], None); ([3], Some "und-Grek-initial")]);
   Some (None, ["1"; "2"], [], None, [([1], None); ([3], None)]); Some (None, ["0"], ["sc:Grek"], None, [([1], None); ([2], None)]);
   Some (None, [], ["sc:Grek"], None, []); Some (None, ["0"], ["sc:Grek"], None, [])],
  [("0", "ELOT 743"); ("1", "ISO 8859"); ("2", "CLDR")],
  ["und-Grek-final"; "und-Grek-initial"; "und-Latn-und-Grek-final"; "und-Latn-final"; "Common-leading-combining-mark"],
  ["und-Latn-vowels"], 1%nat).
Proof. vm_compute. reflexivity. Qed.

Lemma sample_tidy : forall m, In m [latin; greek] -> tidy (mb_lgr m).
Proof. intros m [<-|[<-|[]]]; apply lgr_of_tidy; vm_compute; reflexivity. Qed.

(** ** What is not kept *)
(** The references of a code point two members have are not translated. *)
Definition texts_of (g : lgr) (c : cps) : list (option string) := match lookup (lg_rep g) c with Some ch => map (text_in g) (ch_refs ch) | None => [] end.
Definition cites (g : lgr) (c : cps) (t : string) : Prop := In (Some t) (texts_of g c).
Lemma shared_references_wrong : exists l st m c t, (forall x, In x l -> tidy (mb_lgr x)) /\ NoDup (map get_script l) /\ merge_given l = Ok st /\
  In m l /\ cites (mb_lgr m) c t /\ ~ cites (mg_lgr st) c t.
Proof.
  assert (H : exists st, merge_given [latin; greek] = Ok st /\ texts_of (mg_lgr st) [1] = [Some "ISO 8859"]) by (eexists; split; vm_compute; reflexivity).
  destruct H as [st [H1 H2]]. exists [latin; greek], st, latin, [1], "CLDR". split; [exact sample_tidy|]. split; [repeat constructor; cbn; intuition discriminate|].
  split; [exact H1|]. split; [left; reflexivity|]. split; [vm_compute; auto|]. unfold cites. rewrite H2. intros [H|[]]. discriminate.
Qed.
(** Members with the same script: the references of one are translated as those
    of the other. *)
Definition script_a : member := of_ops "A" [mref "first"].
Definition script_b1 : member := of_ops "B" [mref "second"].
Definition script_b2 : member := of_ops "B" [mref "first"; cp_r 1 ["0"]].
Lemma same_script_references_wrong : exists l st m c t, (forall x, In x l -> tidy (mb_lgr x)) /\ merge_given l = Ok st /\
  In m l /\ only_member l m c /\ cites (mb_lgr m) c t /\ ~ cites (mg_lgr st) c t.
Proof.
  assert (H : exists st, merge_given [script_a; script_b1; script_b2] = Ok st /\ texts_of (mg_lgr st) [1] = [Some "second"]) by (eexists; split; vm_compute; reflexivity).
  destruct H as [st [H1 H2]]. exists [script_a; script_b1; script_b2], st, script_b2, [1], "first".
  split; [intros m [<-|[<-|[<-|[]]]]; apply lgr_of_tidy; vm_compute; reflexivity|]. split; [exact H1|]. split; [cbn; auto|].
  split; [|split; [vm_compute; auto|unfold cites; rewrite H2; intros [H|[]]; discriminate]].
  split; [unfold has_cp; vm_compute; discriminate|]. exists [script_a; script_b1]. split.
  - apply Permutation_sym, (Permutation_cons_append [script_a; script_b1] script_b2).
  - intros x [<-|[<-|[]]]; intro X; apply X; vm_compute; reflexivity.
Qed.
(** A member giving two names to one text cannot be merged. *)
Definition aliased : member := of_ops "B" [mref "first"; mref "first"; cp_r 1 ["0"; "1"]].
Lemma aliased_stops : exists l e, (forall x, In x l -> tidy (mb_lgr x)) /\ NoDup (map get_script l) /\ (forall c, ~ in_two l c) /\ merge_given l = Raise e.
Proof.
  exists [script_a; aliased]. eexists. split; [intros m [<-|[<-|[]]]; apply lgr_of_tidy; vm_compute; reflexivity|].
  split; [repeat constructor; cbn; intuition discriminate|]. split; [|vm_compute; reflexivity].
  intros c [m1 [m2 [rest [P [H1 H2]]]]].
  assert (N : forall m, m = script_a -> ~ has_cp m c) by (intros m -> X; apply X; vm_compute; destruct c as [|? [|? ?]]; reflexivity).
  assert (L : rest = []) by (apply Permutation_length in P; destruct rest; [reflexivity|discriminate]). subst rest.
  apply Permutation_length_2_inv in P. destruct P as [P|P]; injection P as P1 P2; [apply (N m1)|apply (N m2)]; auto.
Qed.

(** ** Variants *)
Definition full (cs : list N) : list lgr_op := map (fun c => lcp [c]) cs ++ flat_map (fun a => flat_map (fun b => if N.eqb a b then [] else [lvar [a] [b]]) cs) cs.
(** Two LGRs, symmetric and transitive, sharing two code points of one variant
    set cannot be merged. *)
Lemma two_shared_stops : exists l e, (forall x, In x l -> tidy (mb_lgr x) /\ symmetric (lg_rep (mb_lgr x)) /\ transitive (lg_rep (mb_lgr x))) /\
  NoDup (map get_script l) /\ merge_given l = Raise e.
Proof.
  exists [of_ops "A" (full [1; 2; 3]); of_ops "B" (full [1; 2; 4])]. eexists. split; [|split; [repeat constructor; cbn; intuition discriminate|vm_compute; reflexivity]].
  intros m [<-|[<-|[]]]; (split; [apply lgr_of_tidy; vm_compute; reflexivity|]);
    (split; [apply check_symmetry_decides; [apply lgr_of_reachable|vm_compute; eexists; eexists; reflexivity]|]); apply transitive_checked; [apply lgr_of_reachable|vm_compute; reflexivity|apply lgr_of_reachable|vm_compute; reflexivity].
Qed.
(** The merge of symmetric and transitive LGRs need not be transitive. *)
Lemma merge_not_transitive : exists l st, (forall x, In x l -> tidy (mb_lgr x) /\ symmetric (lg_rep (mb_lgr x)) /\ transitive (lg_rep (mb_lgr x))) /\
  NoDup (map get_script l) /\ merge_given l = Ok st /\ ~ transitive (lg_rep (mg_lgr st)).
Proof.
  assert (H : exists st, merge_given [of_ops "A" (full [1; 2] ++ full [3; 4]); of_ops "B" (full [2; 3])] = Ok st /\
    has_targetb (mg_lgr st) [1] [2] = true /\ has_targetb (mg_lgr st) [2] [4] = true /\ has_targetb (mg_lgr st) [1] [4] = false) by (eexists; split; [|split; [|split]]; vm_compute; reflexivity).
  destruct H as [st [H1 [H2 [H3 H4]]]]. exists [of_ops "A" (full [1; 2] ++ full [3; 4]); of_ops "B" (full [2; 3])], st.
  split; [|split; [repeat constructor; cbn; intuition discriminate|split; [exact H1|]]].
  - intros m [<-|[<-|[]]]; (split; [apply lgr_of_tidy; vm_compute; reflexivity|]);
    (split; [apply check_symmetry_decides; [apply lgr_of_reachable|vm_compute; eexists; eexists; reflexivity]|]); apply transitive_checked; [apply lgr_of_reachable|vm_compute; reflexivity|apply lgr_of_reachable|vm_compute; reflexivity].
  - intro T. apply has_targetb_iff in H2. apply has_targetb_iff in H3. destruct (T _ _ H2) as [_ T2]. specialize (T2 [4] H3).
    assert (X : has_target (lg_rep (mg_lgr st)) [1] [4]) by (apply T2; discriminate). apply has_targetb_iff in X. congruence.
Qed.

(** ** Context rules *)
(** The rule common to all members is given another name where it is defined
    than where it is asked for. *)
Definition with_rules (script : string) (ops : list lgr_op) (rules : list string) : member := mkMember [script] (lgr_of ops) None [] rules [].
Lemma common_rule_dangles : exists m st c ch w, tidy (mb_lgr m) /\ (forall c n, when_of m c = Some n -> In n (mb_rules m)) /\
  merge_given [m] = Ok st /\ lookup (lg_rep (mg_lgr st)) c = Some ch /\ ch_when ch = Some w /\ ~ In w (mg_rules st).
Proof.
  exists (with_rules "A" [cp_w 1 (Some "leading-combining-mark")] ["leading-combining-mark"]). eexists. exists [1]. eexists. eexists.
  split; [apply lgr_of_tidy; vm_compute; reflexivity|]. split.
  - intros c n H. unfold when_of in H. vm_compute in H. destruct c as [|[|x] [|? ?]]; try discriminate; destruct x; try discriminate; injection H as <-; left; reflexivity.
  - split; [vm_compute; reflexivity|]. split; [vm_compute; reflexivity|]. split; [vm_compute; reflexivity|]. vm_compute. intros [H|[]]. discriminate.
Qed.
(** A rule whose name begins like a script is not recognised as the same. *)
Lemma same_rule_stops : exists l e c n, (forall x, In x l -> tidy (mb_lgr x)) /\ NoDup (map get_script l) /\
  (forall x, In x l -> when_of x c = None \/ when_of x c = Some n) /\ merge_given l = Raise e.
Proof.
  exists [with_rules "A" [cp_w 1 None] []; with_rules "B" [cp_w 1 (Some "A-final")] ["A-final"]; with_rules "C" [cp_w 1 (Some "A-final")] ["A-final"]].
  eexists. exists [1], "A-final". split; [intros m [<-|[<-|[<-|[]]]]; apply lgr_of_tidy; vm_compute; reflexivity|].
  split; [repeat constructor; cbn; intuition discriminate|]. split; [|vm_compute; reflexivity].
  intros x [<-|[<-|[<-|[]]]]; vm_compute; auto.
Qed.

(** ** The hypotheses are met *)
Definition eachb (p : char -> bool) (m : member) : bool := forallb p (all_chars (lg_rep (mb_lgr m))).
Lemma eachb_sound : forall p m c ch, lgr_reachable (mb_lgr m) -> eachb p m = true -> lookup (lg_rep (mb_lgr m)) c = Some ch -> p ch = true.
Proof.
  intros p m c ch R H Hc. unfold eachb in H. rewrite forallb_forall in H. apply H. rewrite lookup_lk in Hc. apply in_all_chars_lk; [apply (lgr_reachable_wf _ R)|].
  rewrite (lk_cp _ _ _ Hc). exact Hc.
Qed.
Definition plain_char (ch : char) : bool := forallb (fun v => (negb (is_some (v_when v)) && negb (is_some (v_not_when v)))%bool) (get_variants ch).
Lemma plain_sound : forall m, lgr_reachable (mb_lgr m) -> eachb plain_char m = true -> unconditional m.
Proof.
  intros m R H a b v [ch [H1 [H2 _]]]. pose proof (eachb_sound _ _ _ _ R H H1) as P. unfold plain_char in P. rewrite forallb_forall in P. specialize (P v H2).
  destruct (v_when v); [discriminate|]. destruct (v_not_when v); [discriminate|auto].
Qed.
Definition left_one : member := of_ops "A" (full [1; 2; 3]).
Definition right_one : member := of_ops "B" (full [1; 4] ++ full [5; 6]).
Lemma pair_meets : tidy (mb_lgr left_one) /\ tidy (mb_lgr right_one) /\ unconditional left_one /\ unconditional right_one /\ complete left_one /\ complete right_one /\
  (forall c, has_cp left_one c -> has_cp right_one c -> c = [1]) /\ exists st, merge_given [left_one; right_one] = Ok st /\ targets_of (mg_lgr st) [4] = [[1]; [2]; [3]].
Proof.
  split; [apply lgr_of_tidy; vm_compute; reflexivity|]. split; [apply lgr_of_tidy; vm_compute; reflexivity|].
  split; [apply plain_sound; [apply lgr_of_reachable|vm_compute; reflexivity]|]. split; [apply plain_sound; [apply lgr_of_reachable|vm_compute; reflexivity]|].
  split; [split; [apply check_symmetry_decides; [apply lgr_of_reachable|vm_compute; eexists; eexists; reflexivity]|apply transitive_checked; [apply lgr_of_reachable|vm_compute; reflexivity]]|].
  split; [split; [apply check_symmetry_decides; [apply lgr_of_reachable|vm_compute; eexists; eexists; reflexivity]|apply transitive_checked; [apply lgr_of_reachable|vm_compute; reflexivity]]|].
  split; [|eexists; split; vm_compute; reflexivity]. intros c H1 H2.
  unfold has_cp in *. destruct (lookup (lg_rep (mb_lgr left_one)) c) as [x|] eqn:E1; [|congruence]. destruct (lookup (lg_rep (mb_lgr right_one)) c) as [y|] eqn:E2; [|congruence].
  assert (P := eachb_sound (fun ch => memb cps_eqb (ch_cp ch) [[1]; [2]; [3]]) left_one c x (lgr_of_reachable _) eq_refl E1).
  assert (Q := eachb_sound (fun ch => memb cps_eqb (ch_cp ch) [[1]; [4]; [5]; [6]]) right_one c y (lgr_of_reachable _) eq_refl E2). cbv beta in P, Q.
  rewrite lookup_lk in E1, E2. rewrite (lk_cp _ _ _ E1) in P. rewrite (lk_cp _ _ _ E2) in Q.
  apply (memb_In _ _ cps_eqb_eq) in P. apply (memb_In _ _ cps_eqb_eq) in Q. cbn in P, Q. destruct P as [P|[P|[P|[]]]]; subst c; [reflexivity| |]; destruct Q as [Q|[Q|[Q|[Q|[]]]]]; discriminate.
Qed.

Lemma starts_prefix : forall s n, String.prefix (s ++ "-") n = false -> ~ starts s n.
Proof. intros s n H [r ->]. assert (X : String.prefix (s ++ "-") (s ++ "-" ++ r) = true) by (apply prefix_iff; exists r; symmetry; apply app_assoc_s). congruence. Qed.
Lemma perm_two : forall (a b m x : member) rest, Permutation [a; b] (m :: x :: rest) -> (m = a /\ x = b) \/ (m = b /\ x = a).
Proof.
  intros a b m x rest P. assert (L : rest = []) by (apply Permutation_length in P; destruct rest; [reflexivity|discriminate]). subst rest.
  apply Permutation_length_2_inv in P. destruct P as [P|P]; injection P as -> ->; auto.
Qed.
Lemma sample_names : unambiguous when_of [latin; greek] /\ unambiguous not_when_of [latin; greek] /\ (forall m, In m [latin; greek] -> rules_known m).
Proof.
  assert (W : forall m c n, In m [latin; greek] -> when_of m c = Some n -> n = "final").
  { intros m c n Hm H. unfold when_of in H. destruct (lookup (lg_rep (mb_lgr m)) c) as [ch|] eqn:E; [|discriminate].
    assert (P : (match ch_when ch with Some n => String.eqb n "final" | None => true end) = true).
    { apply (eachb_sound (fun ch => match ch_when ch with Some n => String.eqb n "final" | None => true end) m c ch); [|destruct Hm as [<-|[<-|[]]]; vm_compute; reflexivity|exact E].
      destruct Hm as [<-|[<-|[]]]; apply lgr_of_reachable. }
    rewrite H in P. apply String.eqb_eq. exact P. }
  assert (V : forall m c, In m [latin; greek] -> not_when_of m c = None).
  { intros m c Hm. unfold not_when_of. destruct (lookup (lg_rep (mb_lgr m)) c) as [ch|] eqn:E; [|reflexivity].
    assert (P : negb (is_some (ch_not_when ch)) = true).
    { apply (eachb_sound (fun ch => negb (is_some (ch_not_when ch))) m c ch); [|destruct Hm as [<-|[<-|[]]]; vm_compute; reflexivity|exact E].
      destruct Hm as [<-|[<-|[]]]; apply lgr_of_reachable. }
    destruct (ch_not_when ch); [discriminate|reflexivity]. }
  assert (A : forall m x rest, Permutation [latin; greek] (m :: x :: rest) -> ~ starts (get_script m) (get_script x ++ "-")).
  { intros m x rest P. apply perm_two in P. destruct P as [[-> ->]|[-> ->]]; apply starts_prefix; vm_compute; reflexivity. }
  split; [|split].
  - split; [|exact A]. intros m x c n Hm Hx Hn. rewrite (W x c n Hx Hn). apply starts_prefix. destruct Hm as [<-|[<-|[]]]; vm_compute; reflexivity.
  - split; [|exact A]. intros m x c n Hm Hx Hn. rewrite (V x c Hx) in Hn. discriminate.
  - intros m Hm. split.
    + intros c n [H|H] _; [|rewrite (V m c Hm) in H; discriminate]. rewrite (W m c n Hm H). split; [destruct Hm as [<-|[<-|[]]]; cbn; auto|]. cbn. intros [X|[]]. discriminate.
    + intros a b v n [ch [H1 [H2 _]]] Hw _.
      assert (P : forallb (fun v => match v_when v with Some n => (String.eqb n "initial" && is_some (mb_extensions m))%bool | None => negb (is_some (v_not_when v)) end && negb (is_some (v_not_when v)))%bool (get_variants ch) = true).
      { apply (eachb_sound (fun ch => forallb (fun v => match v_when v with Some n => (String.eqb n "initial" && is_some (mb_extensions m))%bool | None => negb (is_some (v_not_when v)) end && negb (is_some (v_not_when v)))%bool (get_variants ch)) m a ch);
          [|destruct Hm as [<-|[<-|[]]]; vm_compute; reflexivity|exact H1]. destruct Hm as [<-|[<-|[]]]; apply lgr_of_reachable. }
      rewrite forallb_forall in P. specialize (P v H2). apply andb_prop in P. destruct P as [P1 P2]. destruct Hw as [Hw|Hw]; [|rewrite Hw in P2; discriminate].
      rewrite Hw in P1. apply andb_prop in P1. destruct P1 as [P1 P3]. apply String.eqb_eq in P1. subst n.
      destruct Hm as [<-|[<-|[]]]; [discriminate|]. split; [cbn; auto|]. intros [X|[]]. discriminate.
Qed.
