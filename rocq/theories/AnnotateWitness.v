(** Examples for label reading and annotation. *)
From Verif Require Import Base BaseFacts CharModel RepSpec RangeProofs RepProofs ActionModel ActionSpec LabelModel LabelSpec LabelProofs LabelElig LabelFinal UtilsModel UtilsProofs CollisionModel CollisionWitness AnnotateModel AnnotateSpec AnnotateRead AnnotateProofs.
Open Scope string_scope.
Open Scope list_scope.

(** A decoder that knows one A-label. *)
Definition toy_decode (s : cps) : res cps :=
  if cps_eqb (map lower_ascii s) (txt "xn--m-0ga") then Ok [246; 109] else Raise ValueError.
Lemma toy_decode_nonempty : forall s, toy_decode s <> Ok [].
Proof. intro s. unfold toy_decode. destruct (cps_eqb _ _); discriminate. Qed.

Definition toy_lines : list cps :=
  [65279 :: txt "# only a comment"; txt "  abc  # the first"; txt ""; txt "U+0061 U+0062"; txt "XN--m-0ga"; txt "a zz"; txt "0061"].

Definition toy_rep : repertoire := built [addc [97]; addc [98]; OpAddChar [99] None [] [] (Some "never") None].
Definition refuse_all : action := mkAction "invalid" None None None None None.
Definition never_fires : action := mkAction "blocked" (Some "never") None None None None.
Definition other_fires : action := mkAction "blocked" (Some "other") None None None None.

(** Checks a property of all entries by computation. *)
Lemma rules_named_by : forall r, reachable r ->
  forallb (fun ch => negb (ostring_eqb (ch_when ch) (Some "")) && negb (ostring_eqb (ch_not_when ch) (Some "")))%bool (all_chars r) = true ->
  rules_named r.
Proof.
  intros r Hr H ch He. rewrite forallb_forall in H. apply entry_lk in He.
  specialize (H ch (lk_in_all r _ ch (reachable_wf r Hr) He)). apply andb_true_iff in H. destruct H as [H1 H2].
  apply negb_true_iff in H1. apply negb_true_iff in H2. split; intro Hx.
  - rewrite Hx in H1. discriminate.
  - rewrite Hx in H2. discriminate.
Qed.
Definition nothing_holds : rule_oracle := fun _ _ _ => false.
Lemma toy_rep_fine : reachable toy_rep /\ rules_named toy_rep.
Proof. split; [apply built_reachable|]. apply rules_named_by; [apply built_reachable|]. vm_compute. reflexivity. Qed.

(** A label refused by the first action: the rule is not shown. *)
Lemma first_rule_hidden : exists decode rm r acts line label a,
  (forall s, decode s <> Ok []) /\ reachable r /\ rules_named r /\
  outcome rm r acts label (Some "invalid") [] (Some (0%nat, a)) /\
  annotate decode rm r acts [line] = ([Verdict label (Some "invalid") NoCollision], Ok tt).
Proof.
  exists toy_decode, nothing_holds, toy_rep, [refuse_all], (txt "ab"), (txt "ab"), refuse_all.
  split; [apply toy_decode_nonempty|]. destruct toy_rep_fine as [H1 H2]. split; auto. split; auto. split; [|vm_compute; reflexivity].
  destruct (eligibility_outcome nothing_holds toy_rep [refuse_all] (txt "ab") H1) as [e [by_ [E1 [E2 E3]]]]; [discriminate|].
  assert (Ee : test_label_eligible nothing_holds toy_rep [refuse_all] (txt "ab") false = Ok e) by exact E1. clear E1. vm_compute in Ee.
  injection Ee as <-. cbn [el_disp el_invalid el_ok el_idx] in *. destruct by_ as [[i a]|].
  - destruct E3 as [E3 [_ E4]]. assert (i = 0%nat) by lia. subst i. cbn in E4. injection E4 as <-. exact E2.
  - destruct E3 as [_ E3]. discriminate.
Qed.

(** The rule shown with a set of labels is not the one that decided. *)
Lemma set_rule_wrong : exists decode rm r sr acts sacts index listing line label i a b,
  (forall s, decode s <> Ok []) /\ reachable r /\ reachable sr /\ (forall x, In x sacts -> In x acts) /\
  outcome rm sr sacts label (Some "invalid") [] (Some (i, b)) /\ a <> b /\
  lgr_set_annotate decode rm rm r sr acts sacts index listing [] [line] =
    ([SetHeader; SetFooter; Verdict label (Some "invalid") NoCollision; ByRule (Z.of_nat i) a], Ok tt).
Proof.
  exists toy_decode, nothing_holds, toy_rep, toy_rep, [other_fires; never_fires; refuse_all], [never_fires; refuse_all], sample_index, sample_listing,
    (txt "ab"), (txt "ab"), 1%nat, never_fires, refuse_all.
  split; [apply toy_decode_nonempty|]. destruct toy_rep_fine as [H1 H2]. split; auto. split; auto. split; [|split; [|split; [discriminate|vm_compute; reflexivity]]].
  - intros x [<-|[<-|[]]]; [right; left; reflexivity|right; right; left; reflexivity].
  - destruct (eligibility_outcome nothing_holds toy_rep [never_fires; refuse_all] (txt "ab") H1) as [e [by_ [E1 [E2 E3]]]]; [discriminate|].
    assert (Ee : test_label_eligible nothing_holds toy_rep [never_fires; refuse_all] (txt "ab") false = Ok e) by exact E1. clear E1. vm_compute in Ee.
    injection Ee as <-. cbn [el_disp el_invalid el_ok el_idx] in *. destruct by_ as [[i a]|].
    + destruct E3 as [E3 [_ E4]]. assert (i = 1%nat) by lia. subst i. cbn in E4. injection E4 as <-. exact E2.
    + destruct E3 as [_ E3]. discriminate.
Qed.
(** More actions in the script LGR than in the other: the listing is cut. *)
Lemma set_rule_missing : exists decode rm r sr acts sacts index listing line,
  (forall s, decode s <> Ok []) /\ reachable r /\ reachable sr /\ rules_named sr /\
  snd (lgr_set_annotate decode rm rm r sr acts sacts index listing [] [line]) = Raise IndexError.
Proof.
  exists toy_decode, nothing_holds, toy_rep, toy_rep, [], [never_fires; never_fires; never_fires; never_fires; never_fires; refuse_all], sample_index, sample_listing, (txt "ab").
  destruct toy_rep_fine as [H1 H2]. repeat (split; [first [apply toy_decode_nonempty | exact H1 | exact H2]|]). vm_compute. reflexivity.
Qed.
