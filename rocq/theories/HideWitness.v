(** Hiding mixed script variants: labels of named scripts, and samples. *)
From Verif Require Import Base BaseFacts CharModel RepSpec RepProofs VariantProofs ActionModel ActionSpec ActionProofs RangeProofs
  LabelModel LabelSpec LabelProofs LabelElig LabelGen LabelVar LabelFilter LabelList LabelFinal HideSpec HideProofs HideFinal.
Open Scope N_scope.
Open Scope string_scope.
Open Scope list_scope.

(** Wrappers from reachability. *)
Lemma hidden_exact_reach : forall rm r script label, reachable r -> label <> [] ->
  exists ws, label_variants rm r script label true = Some ws /\
    (forall w, In w ws -> exists l, remains rm r script label l /\ produced l /\ reports w l) /\
    (forall l, remains rm r script label l -> produced l -> exists w, In w ws /\ reports w l).
Proof. intros rm r script label Hr. exact (hidden_exact rm r script (reachable_wf r Hr) label). Qed.
Lemma hidden_shown_reach : forall rm r script label ws ws' w, reachable r -> label <> [] ->
  label_variants rm r script label true = Some ws -> label_variants rm r script label false = Some ws' ->
  In w ws -> exists w', In w' ws' /\ vl_cp w' = vl_cp w.
Proof. intros rm r script label ws ws' w Hr Hne H H' Hw. exact (hidden_shown rm r script (reachable_wf r Hr) label ws ws' Hne H H' w Hw). Qed.
Lemma alternative_everywhere_reach : forall r script label s, reachable r -> label <> [] -> (forall x, In x label -> known r x) ->
  (alternative r script label s <-> everywhere r script label s).
Proof. intros r script label s Hr. exact (alternative_everywhere r script (reachable_wf r Hr) label s). Qed.
Lemma whole_script_kept_reach : forall rm r script label s, reachable r -> label <> [] -> named s ->
  (forall ch a b, entry r ch -> label = a ++ ch_cp ch ++ b -> length (ch_cp ch) = 1%nat) ->
  exists ws, label_variants rm r script label true = Some ws /\
    forall l, replacement rm (considered rm r) [] label l ->
      (forall x, In x l -> exists v, snd x = PVar v /\ forall y, In y (v_cp v) -> script y = s) ->
      exists w, In w ws /\ reports w l.
Proof. intros rm r script label s Hr Hne Hn Hs. exact (whole_script_kept rm r script (reachable_wf r Hr) label s Hne Hs Hn). Qed.

(** When no code point of the label is of script Common or Inherited, hiding
    keeps the types of what it keeps. *)
Lemma remains_named : forall rm r script label l, (forall x, In x label -> named (script x)) ->
  (remains rm r script label l <-> replacement rm (considered rm r) [] label l /\ fits r script label l).
Proof.
  intros rm r script label l Hn. unfold remains. split; [|tauto]. intros [[H|H] Hf]; [auto|]. exfalso.
  inversion H as [ch v tail l' E Hc Hu Hv Hno Hl]; subst l. apply Hno. intros x Hx. cbn [piece_cp] in Hx.
  assert (In x label) by (rewrite E; apply in_or_app; auto). apply named_native; auto.
Qed.
Lemma hidden_same : forall rm r script label ws ws', reachable r -> label <> [] -> (forall x, In x label -> named (script x)) ->
  label_variants rm r script label true = Some ws -> label_variants rm r script label false = Some ws' ->
  (forall w, In w ws -> exists l w', fits r script label l /\ reports w l /\ In w' ws' /\ reports w' l) /\
  (forall l, replacement rm (considered rm r) [] label l -> produced l -> fits r script label l -> exists w, In w ws /\ reports w l).
Proof.
  intros rm r script label ws ws' Hr Hne Hn H H'. destruct (hidden_exact_reach rm r script label Hr Hne) as [ws0 [W1 [W2 W3]]]. assert (ws0 = ws) by congruence. subst ws0.
  destruct (variants_exact_reach rm r script label Hr Hne) as [ws1 [V1 [_ V3]]]. assert (ws1 = ws') by congruence. subst ws1. split.
  - intros w Hw. destruct (W2 w Hw) as [l [Hl [Hp Hrep]]]. apply remains_named in Hl; auto. destruct Hl as [Hl Hf]. destruct (V3 l Hl Hp) as [w' [Hw' Hr']]. exists l, w'. auto.
  - intros l Hl Hp Hf. apply W3; auto. apply remains_named; auto.
Qed.

(** ** Samples *)
(** A digit with a blocked mapping to itself. *)
Definition digit_ops := [addc [500]; addc [1]; addc [2]; addv [500] [500] (Some "blocked"); addv [1] [2] (Some "allocatable")].
Lemma verdict_changed : exists r script label zs zs', reachable r /\
  compute_label_disposition no_rules r [] script true label true false false [] = (zs, Ok tt) /\
  compute_label_disposition no_rules r [] script true label true true false [] = (zs', Ok tt) /\
  map (fun z => (ls_cp z, ls_disp z)) zs = [([500; 2], Some "blocked"); ([500; 1], Some "blocked")] /\
  map (fun z => (ls_cp z, ls_disp z)) zs' = [([500; 2], Some "allocatable"); ([500; 1], Some "valid")].
Proof.
  exists (built digit_ops), mixed_script, [500; 1]. do 2 eexists. split; [apply built_reachable|].
  split; [vm_compute; reflexivity|]. split; [vm_compute; reflexivity|]. split; reflexivity.
Qed.
(** A sequence in the label. *)
Definition inner_ops := [addc [1]; addc [2; 3]; addc [4]; addc [300]; addc [301]; addc [302];
  addv [1] [300] None; addv [2; 3] [301] None; addv [4] [302] None].
Lemma whole_script_hidden : exists r script label ws ws' s, reachable r /\ named s /\
  label_variants no_rules r script label false = Some ws /\ label_variants no_rules r script label true = Some ws' /\
  exists w, In w ws /\ (forall x, In x (vl_cp w) -> script x = s) /\ (forall p, In p (vl_chars w) -> exists v, p = PVar v) /\
    ~ In (vl_cp w) (map vl_cp ws').
Proof.
  exists (built inner_ops), mixed_script, [1; 2; 3; 4]. do 2 eexists. exists "Greek". split; [apply built_reachable|]. split; [split; discriminate|].
  split; [vm_compute; reflexivity|]. split; [vm_compute; reflexivity|].
  eexists. split; [do 7 right; left; reflexivity|]. split; [|split].
  - cbn. intros x [<-|[<-|[<-|[]]]]; reflexivity.
  - cbn. intros p [<-|[<-|[<-|[]]]]; eauto.
  - vm_compute. intuition discriminate.
Qed.
(** Han and Latin mix in this order only. *)
Definition order_ops := [addc [1]; addc [2]; addc [100]; addc [101]; addc [200]; addc [201];
  addv [1] [100] None; addv [1] [201] None; addv [2] [101] None; addv [2] [200] None].
Lemma order_matters : exists r script label ws ws', reachable r /\
  label_variants no_rules r script label false = Some ws /\ label_variants no_rules r script label true = Some ws' /\
  (forall x, In x [100; 200; 201; 101] -> permitted (fun s => s = "Han") (script x)) /\
  In [100; 200] (map vl_cp ws') /\ In [201; 101] (map vl_cp ws) /\ ~ In [201; 101] (map vl_cp ws').
Proof.
  exists (built order_ops), mixed_script, [1; 2]. do 2 eexists. split; [apply built_reachable|].
  split; [vm_compute; reflexivity|]. split; [vm_compute; reflexivity|]. split; [|split; [|split]].
  - intros x [<-|[<-|[<-|[<-|[]]]]]; vm_compute; auto.
  - vm_compute. auto 8.
  - vm_compute. auto 12.
  - vm_compute. intuition discriminate.
Qed.
Lemma hide_sample : reachable (built order_ops) /\ (forall x, In x [1; 2] -> known (built order_ops) x) /\
  (forall x, In x [1; 2] -> named (mixed_script x)) /\ alternative (built order_ops) mixed_script [1; 2] "Han" /\
  (forall ch a b, entry (built order_ops) ch -> [1; 2] = a ++ ch_cp ch ++ b -> length (ch_cp ch) = 1%nat) /\
  option_map (map vl_cp) (label_variants no_rules (built order_ops) mixed_script [1; 2] true) = Some [[1; 2]; [100; 101]; [100; 200]; [201; 200]].
Proof.
  split; [apply built_reachable|]. split; [|split; [|split; [|split]]].
  - intros x Hx. assert (Hp : get_chars_from_prefix (built order_ops) x true <> Raise (NotInLGR [x])).
    { destruct Hx as [<-|[<-|[]]]; vm_compute; discriminate. }
    destruct (get_chars_from_prefix (built order_ops) x true) as [l|e] eqn:E.
    + eapply prefix_known; [apply reachable_wf, built_reachable|exact E].
    + exfalso. apply Hp. unfold get_chars_from_prefix in E. destruct (dget N.eqb x (rep_chars (built order_ops))); [discriminate|]. congruence.
  - intros x [<-|[<-|[]]]; split; discriminate.
  - apply (other_scripts_spec (built order_ops) mixed_script (reachable_wf _ (built_reachable _))). vm_compute. auto.
  - intros ch a b He _. rewrite built_entry in He. vm_compute in He. repeat destruct He as [He|He]; try contradiction; subst ch; reflexivity.
  - vm_compute. reflexivity.
Qed.
