(** Witnesses used beside the label theorems. *)
From Verif Require Import Base BaseFacts CharModel RepSpec RepProofs RangeProofs VariantProofs ActionModel ActionSpec ActionProofs
  LabelModel LabelSpec LabelProofs LabelElig LabelIndex LabelGen LabelVar LabelFilter LabelList.
Open Scope string_scope.
Open Scope list_scope.

Definition no_rules : rule_oracle := fun _ _ _ => true.
Definition addv (a b : cps) (t : option string) := OpAddVariant a (mkVariant b t None None None []).
Definition built (ops : list rep_op) : repertoire := fst (rep_run empty_rep ops).
Lemma built_reachable : forall ops, reachable (built ops).
Proof. intro ops. exists ops. reflexivity. Qed.
Lemma built_entry : forall ops ch, entry (built ops) ch <-> In ch (all_chars (built ops)).
Proof. intros ops ch. rewrite entry_lk. symmetry. apply in_all_chars_lk. apply reachable_wf. apply built_reachable. Qed.
Lemma built_cut : forall rm ops label ps p, label <> [] -> label_partitions rm (built ops) label = Some ps -> In p ps -> cut rm (built ops) label 0 p.
Proof.
  intros rm ops label ps p Hne H Hp. destruct (label_partitions_spec rm (built ops) label (built_reachable ops) Hne) as [ps' [H1 [_ H2]]].
  apply H2. congruence.
Qed.

(** C16 wrappers *)
Lemma eligible_composed : forall rm r acts label isv e, reachable r -> test_label_eligible rm r acts label isv = Ok e -> el_ok e = true ->
  cut rm r label 0 (el_chars e) /\ spelled (el_chars e) = label /\ el_parts e = label /\ el_invalid e = [] /\ el_disp e <> Some "invalid".
Proof.
  intros rm r acts label isv e Hr H Hok. assert (Hne : label <> []) by (intros ->; discriminate).
  destruct (test_label_eligible_spec rm r acts label isv Hr Hne) as [e' [chars [inv [H1 [H2 [H3 [H4 H5]]]]]]]. assert (e' = e) by congruence. subst e'.
  destruct H5 as [[_ [H5 _]]|[-> [ds [only [a [i [_ [_ [_ [H6 [_ [H7 H8]]]]]]]]]]]]; [congruence|].
  assert (Hc : cut rm r label 0 (el_chars e)) by (rewrite H3; eapply longest_match_cut; eauto). split; auto. split; [symmetry; apply (cut_spelled _ _ _ _ _ Hc); lia|].
  split; [rewrite H8, Hok; reflexivity|]. split; auto. rewrite H6. intro Hx. apply H7 in Hok. apply Hok. congruence.
Qed.
Lemma longest_match_reasons : forall rm r label i chars inv, longest_match rm r label i chars inv ->
  forall x reason, In (x, reason) inv -> exists j, nth_error label j = Some x /\ (forall ch, ~ applies rm r label j ch) /\ right_reason r label j reason.
Proof.
  intros rm r label i chars inv H. induction H as [|i ch l inv Ha Hm H IH|i x rs l inv Hx Hn Hrr H IH]; intros y reason Hin; [contradiction|auto|].
  destruct Hin as [Hin|Hin]; [|auto]. injection Hin as <- <-. exists i. auto.
Qed.
Lemma ineligible_reasons : forall rm r acts label isv e, reachable r -> test_label_eligible rm r acts label isv = Ok e -> el_ok e = false ->
  el_disp e = Some "invalid" /\
  (el_invalid e <> [] \/ (cut rm r label 0 (el_chars e) /\ (0 <= el_idx e)%Z)) /\
  forall x reason, In (x, reason) (el_invalid e) ->
    exists j, nth_error label j = Some x /\ (forall ch, ~ applies rm r label j ch) /\ right_reason r label j reason.
Proof.
  intros rm r acts label isv e Hr H Hok. assert (Hne : label <> []) by (intros ->; discriminate).
  destruct (test_label_eligible_spec rm r acts label isv Hr Hne) as [e' [chars [inv [H1 [H2 [H3 [H4 H5]]]]]]]. assert (e' = e) by congruence. subst e'.
  split; [|split].
  - destruct H5 as [[_ [_ [_ [H5 _]]]]|[_ [ds [only [a [i [_ [_ [_ [H6 [_ [H7 _]]]]]]]]]]]]; auto. rewrite H6. f_equal.
    destruct (string_dec (a_disp a) "invalid") as [E|E]; auto. apply H7 in E. congruence.
  - destruct H5 as [[H5 _]|[E [ds [only [a [i [_ [_ [_ [_ [H6 _]]]]]]]]]]]; [left; congruence|right]. split; [rewrite H3; eapply longest_match_cut; eauto|]. rewrite H6. lia.
  - rewrite H4. eapply longest_match_reasons; eauto.
Qed.
Lemma eligibility_total : forall rm r acts label isv, reachable r ->
  (label <> [] -> exists e, test_label_eligible rm r acts label isv = Ok e) /\
  (label = [] -> test_label_eligible rm r acts label isv = Raise (LGRApiInvalidParameter "label")).
Proof.
  intros rm r acts label isv Hr. split; [|intros ->; reflexivity]. intro Hne.
  destruct (test_label_eligible_spec rm r acts label isv Hr Hne) as [e [_ [_ [H _]]]]. eauto.
Qed.

(** C17 *)
Lemma eligible_when_each_position : forall rm r acts label isv e, reachable r -> test_label_eligible rm r acts label isv = Ok e ->
  (forall j, (j < length label)%nat -> exists ch, applies rm r label j ch) -> el_invalid e = [].
Proof.
  intros rm r acts label isv e Hr H Hall. assert (Hne : label <> []) by (intros ->; discriminate).
  destruct (test_label_eligible_spec rm r acts label isv Hr Hne) as [e' [chars [inv [H1 [H2 [H3 [H4 _]]]]]]]. assert (e' = e) by congruence. subst e'.
  rewrite H4. eapply longest_match_no_skip; eauto.
Qed.
Lemma cut_positions : forall rm r label i l, single_entries r -> cut rm r label i l -> forall j, (i <= j < length label)%nat -> exists ch, applies rm r label j ch.
Proof.
  intros rm r label i l Hs H. induction H as [|i ch l Ha Hc IH]; intros j Hj; [lia|]. destruct (Nat.eq_dec i j) as [->|Hd]; [eauto|].
  apply IH. rewrite (Hs ch (proj1 Ha)). lia.
Qed.
Lemma eligible_single_entries : forall rm r acts label isv e l, reachable r -> single_entries r -> cut rm r label 0 l ->
  test_label_eligible rm r acts label isv = Ok e -> el_invalid e = [].
Proof.
  intros rm r acts label isv e l Hr Hs Hc H. eapply eligible_when_each_position; eauto. intros j Hj. eapply cut_positions; eauto. lia.
Qed.
Definition greedy_ops := [addc [97; 98]; addc [97]; addc [98; 99]].
Lemma greedy_incomplete : exists r label l e, reachable r /\ cut no_rules r label 0 l /\
  test_label_eligible no_rules r [] label false = Ok e /\ el_ok e = false /\ el_invalid e <> [].
Proof.
  exists (built greedy_ops), [97; 98; 99]. destruct (label_partitions no_rules (built greedy_ops) [97; 98; 99]) as [[|p ps]|] eqn:E; try (vm_compute in E; discriminate).
  exists p. eexists. split; [apply built_reachable|]. split; [eapply built_cut; eauto; [discriminate|left; reflexivity]|]. split; [vm_compute; reflexivity|]. split; [reflexivity|discriminate].
Qed.

(** C18 *)
Lemma partitions_exact : forall rm r label, reachable r -> label <> [] ->
  exists ps, label_partitions rm r label = Some ps /\ NoDup ps /\ (forall p, In p ps <-> cut rm r label 0 p) /\
    (forall acts isv e, test_label_eligible rm r acts label isv = Ok e -> el_invalid e = [] -> ps <> []).
Proof.
  intros rm r label Hr Hne. destruct (label_partitions_spec rm r label Hr Hne) as [ps [H1 [H2 H3]]]. exists ps. split; auto. split; auto. split; auto.
  intros acts isv e He Hi ->. destruct (test_label_eligible_spec rm r acts label isv Hr Hne) as [e' [chars [inv [E1 [E2 [E3 [E4 _]]]]]]]. assert (e' = e) by congruence. subst e'.
  apply (proj2 (H3 chars)). eapply longest_match_cut; eauto. congruence.
Qed.

(** C19 *)
Definition simple_ops :=
  [addc [97]; addc [98]; addc [99]; addc [100]; addv [97] [98] (Some "blocked"); addv [98] [97] None; addv [97] [99] None;
   addv [99] [97] None; addv [98] [99] None; addv [99] [98] None].
Lemma maps_to_dec : forall ops x y, maps_to (built ops) x y <->
  match lookup (built ops) [x] with Some ch => existsb (fun v => cps_eqb (v_cp v) [y]) (get_variants ch) | None => false end = true.
Proof.
  intros ops x y. unfold maps_to. split.
  - intros [ch [v [H1 [H2 H3]]]]. rewrite H1. apply existsb_exists. exists v. split; auto. rewrite H3. apply cps_eqb_refl.
  - destruct (lookup (built ops) [x]) as [ch|]; [|discriminate]. intro H. apply existsb_exists in H. destruct H as [v [H1 H2]]. exists ch, v. split; auto. split; auto. apply cps_eqb_eq. exact H2.
Qed.
Lemma simple_maps : forall x y, maps_to (built simple_ops) x y -> In (x, y) [(97, 98); (97, 99); (98, 97); (98, 99); (99, 97); (99, 98)].
Proof.
  intros x y [ch [v [H1 [H2 H3]]]]. assert (He : entry (built simple_ops) ch).
  { unfold entry. rewrite lookup_lk in H1. rewrite (lk_cp _ _ _ H1), lookup_lk. exact H1. }
  assert (Hc : ch_cp ch = [x]) by (rewrite lookup_lk in H1; apply (lk_cp _ _ _ H1)). clear H1.
  rewrite built_entry in He. vm_compute in He. repeat destruct He as [He|He]; try contradiction; subst ch; cbn in Hc; injection Hc as <-;
    vm_compute in H2; repeat destruct H2 as [H2|H2]; try contradiction; subst v; cbn in H3; injection H3 as <-; cbn; tauto.
Qed.
Lemma simple_sample : simple_lgr (built simple_ops).
Proof.
  constructor.
  - intros ch He. rewrite built_entry in He. vm_compute in He. repeat destruct He as [He|He]; try contradiction; subst ch; cbn; eauto.
  - intros ch He. rewrite built_entry in He. vm_compute in He. repeat destruct He as [He|He]; try contradiction; subst ch; cbn; auto.
  - intros ch v He Hv. rewrite built_entry in He. vm_compute in He. repeat destruct He as [He|He]; try contradiction; subst ch; vm_compute in Hv;
      repeat destruct Hv as [Hv|Hv]; try contradiction; subst v; cbn; (split; [reflexivity|split; [reflexivity|eexists; split; [reflexivity|vm_compute; discriminate]]]).
  - intros x y H. apply simple_maps in H. cbn in H. repeat destruct H as [H|H]; try contradiction; injection H as <- <-; apply maps_to_dec; vm_compute; reflexivity.
  - intros x y z H G. apply simple_maps in H. apply simple_maps in G. cbn in H, G.
    repeat destruct H as [H|H]; try contradiction; injection H as <- <-; repeat destruct G as [G|G]; try contradiction; try discriminate; injection G as <-;
      try (left; reflexivity); right; apply maps_to_dec; vm_compute; reflexivity.
Qed.
(** Outside that class the index may exceed the label. *)
Definition shrink_ops := [addc [97; 98]; addc [97]; addc [99]; addv [97; 98] [97] None; addv [97] [97; 98] None].
Lemma index_exceeds : exists r label m, reachable r /\ index_once no_rules r label = Ok m /\ m <> label /\ cps_leb label m = true.
Proof. exists (built shrink_ops), [97; 98; 99], [97; 99]. split; [apply built_reachable|]. split; [vm_compute; reflexivity|]. split; [discriminate|reflexivity]. Qed.
(** ... and two labels that are variants of each other may have different ones. *)
Definition chain_ops := [addc [97]; addc [98]; addv [97] [98] None].
Lemma index_asymmetric : exists r a b ia ib, reachable r /\ maps_to r a b /\ index_once no_rules r [a] = Ok ia /\ index_once no_rules r [b] = Ok ib /\ ia <> ib.
Proof.
  exists (built [addc [97]; addc [98]; addv [98] [97] None; addc [96]; addv [97] [96] None]), 98, 97, [97], [96]. split; [apply built_reachable|]. split; [apply maps_to_dec; vm_compute; reflexivity|].
  split; [vm_compute; reflexivity|]. split; [vm_compute; reflexivity|discriminate].
Qed.

(** C21 *)
Definition gap_ops := [addc [97]; addc [97; 98]; addc [99]; addv [97] [120] None; addv [99] [100] None; addc [100]; addc [120]].
Lemma generation_incomplete : exists r label l ws, reachable r /\ free_replacement no_rules r [] label l /\ result l <> label /\
  (exists p, cut no_rules r (result l) 0 p) /\
  label_variants no_rules r (fun _ => "Latin") label false = Some ws /\ ~ In (result l) (map vl_cp ws).
Proof.
  pose (r := built gap_ops).
  destruct (lookup r [97; 98]) as [ab|] eqn:Eab; [|vm_compute in Eab; discriminate].
  destruct (lookup r [99]) as [c|] eqn:Ec; [|vm_compute in Ec; discriminate].
  exists r, [97; 98; 99], [(ab, PChar ab); (c, PVar (mkVariant [100] None None None None []))].
  assert (Hab : ch_cp ab = [97; 98]) by (unfold r in Eab; rewrite lookup_lk in Eab; apply (lk_cp _ _ _ Eab)).
  assert (Hc : ch_cp c = [99]) by (unfold r in Ec; rewrite lookup_lk in Ec; apply (lk_cp _ _ _ Ec)).
  assert (Hres : result [(ab, PChar ab); (c, PVar (mkVariant [100] None None None None []))] = [97; 98; 100]) by (cbn; rewrite Hab; reflexivity).
  rewrite Hres. eexists. split; [apply built_reachable|]. split; [|split; [discriminate|split; [|split; [vm_compute; reflexivity|]]]].
  - change [97; 98; 99] with ([97; 98] ++ [99]). rewrite <- Hab at 1. apply fr_keep; [unfold entry; rewrite Hab; exact Eab|].
    change [99] with ([99] ++ []). rewrite <- Hc. apply fr_variant; [unfold entry; rewrite Hc; exact Ec| |constructor].
    split; [|exact I]. unfold r in Ec. vm_compute in Ec. injection Ec as <-. left. reflexivity.
  - destruct (label_partitions no_rules r [97; 98; 100]) as [[|p ps]|] eqn:E; try (vm_compute in E; discriminate). exists p. eapply built_cut; eauto; [discriminate|left; reflexivity].
  - vm_compute. intuition discriminate.
Qed.
Definition seq_ops := [addc [97]; addc [98]; addc [97; 98]; addv [97; 98] [99] (Some "blocked"); addc [99]; addv [97] [100] (Some "allocatable"); addv [98] [98] (Some "r")].
Lemma seq_mapped_sample : sequences_mapped (built seq_ops).
Proof.
  intros ch He Hl. rewrite built_entry in He. vm_compute in He. repeat destruct He as [He|He]; try contradiction; subst ch; cbn in Hl; try lia.
  split; [vm_compute; discriminate|]. split; reflexivity.
Qed.

(** C23 *)
Definition count_ops := [addc [97]; addc [98]; addc [97; 98]; addc [120]; addc [121]; addv [97] [120] None; addv [98] [121] None].
Lemma estimate_too_small : exists r label zs n, reachable r /\ (exists chars, longest_match no_rules r label 0 chars []) /\
  compute_label_disposition no_rules r [] (fun _ => "Latin") true label false false false [] = (zs, Ok tt) /\
  estimate_variant_number no_rules r (fun _ => "Latin") label false = Some n /\ (n < length zs)%nat.
Proof.
  exists (built count_ops), [97; 98]. eexists. exists 1%nat. split; [apply built_reachable|]. split.
  { destruct (preliminary_spec no_rules (built count_ops) [97; 98] (built_reachable _)) as [p [H1 [H2 _]]]. exists (pr_chars p).
    replace (@nil (N * option (list (option string)))) with (pr_invalid p); auto. vm_compute in H1. injection H1 as <-. reflexivity. }
  split; [vm_compute; reflexivity|]. split; [vm_compute; reflexivity|]. cbn. lia.
Qed.
Definition mixed_script (x : N) : string :=
  if N.ltb x 100 then "Cyrillic" else if N.ltb x 200 then "Han" else if N.ltb x 300 then "Latin" else if N.ltb x 400 then "Greek"
  else if N.ltb x 500 then "Hebrew" else "Common".
Definition hide_ops := [addc [1]; addc [2]; addc [100]; addc [101]; addc [200]; addv [1] [100] None; addv [2] [101] None; addv [2] [200] None].
Lemma estimate_hidden_too_small : exists r script label zs n, reachable r /\ single_entries r /\ (exists chars, longest_match no_rules r label 0 chars []) /\
  compute_label_disposition no_rules r [] script true label false true false [] = (zs, Ok tt) /\
  estimate_variant_number no_rules r script label true = Some n /\ (n < length zs)%nat.
Proof.
  exists (built hide_ops), mixed_script, [1; 2]. eexists. exists 2%nat. split; [apply built_reachable|]. split; [|split].
  { intros ch He. rewrite built_entry in He. vm_compute in He. repeat destruct He as [He|He]; try contradiction; subst ch; reflexivity. }
  { destruct (preliminary_spec no_rules (built hide_ops) [1; 2] (built_reachable _)) as [p [H1 [H2 _]]]. exists (pr_chars p).
    replace (@nil (N * option (list (option string)))) with (pr_invalid p); auto. vm_compute in H1. injection H1 as <-. reflexivity. }
  split; [vm_compute; reflexivity|]. split; [vm_compute; reflexivity|]. cbn. lia.
Qed.
Lemma plain_sample : plain_variants (built simple_ops).
Proof.
  constructor.
  - intros ch He. rewrite built_entry in He. vm_compute in He. repeat destruct He as [He|He]; try contradiction; subst ch; reflexivity.
  - intros ch v He Hv. destruct (sl_variants _ simple_sample ch v He Hv) as [H1 [H2 [y [H3 _]]]]. rewrite H3. auto.
Qed.

(** C29 *)
Lemma first_piece_mixes : exists r script label ws w, reachable r /\ label_variants no_rules r script label true = Some ws /\ In w ws /\
  (exists x, In x (vl_cp w) /\ ~ permitted (label_script script label) (script x)) /\
  forall s, ~ forall x, In x (vl_cp w) -> permitted (fun t => t = s) (script x).
Proof.
  exists (built [addc [1]; addv [1] [300; 400] None]), mixed_script, [1]. do 2 eexists. split; [apply built_reachable|]. split; [vm_compute; reflexivity|].
  split; [right; left; reflexivity|]. cbn [vl_cp]. split.
  - exists 300. split; [left; reflexivity|]. intro H. apply base_scripts_spec in H. vm_compute in H. intuition discriminate.
  - intros s H. pose proof (H 300 (or_introl eq_refl)) as H1. pose proof (H 400 (or_intror (or_introl eq_refl))) as H2.
    change (mixed_script 300) with "Greek" in H1. change (mixed_script 400) with "Hebrew" in H2. unfold permitted in *.
    destruct H1 as [H1|[[_ H1]|[_ H1]]]; try (intuition discriminate). destruct H2 as [H2|[[_ H2]|[_ H2]]]; try (intuition discriminate). congruence.
Qed.
Lemma common_hides_all : exists r script label ws ws' w, reachable r /\
  label_variants no_rules r script label false = Some ws /\ In w ws /\
  (forall x, In x (vl_cp w) -> exists y, In y label /\ script y = script x) /\
  label_variants no_rules r script label true = Some ws' /\ ~ In (vl_cp w) (map vl_cp ws').
Proof.
  exists (built [addc [1]; addc [500]; addv [1] [2] None; addc [2]]), mixed_script, [1; 500]. do 3 eexists. split; [apply built_reachable|].
  split; [vm_compute; reflexivity|]. split; [left; reflexivity|]. cbn [vl_cp app]. split.
  - intros x [<-|[<-|[]]]; [exists 1|exists 500]; cbn; auto.
  - split; [vm_compute; reflexivity|]. vm_compute. intuition discriminate.
Qed.

(** C44: the first derivation of a label decides. *)
Definition twice_ops := [addc [97]; addc [98]; addc [97; 98]; addc [120]; addc [121]; addv [97; 98] [120; 121] (Some "invalid");
  addv [97] [120] (Some "allocatable"); addv [98] [121] (Some "allocatable")].
Lemma allocatable_suppressed : exists r label ws w z zs, reachable r /\
  label_variants no_rules r (fun _ => "Latin") label false = Some ws /\ In w ws /\ vl_cp w <> label /\
  judged no_rules r [] label w z /\ ls_disp z = Some "allocatable" /\
  compute_label_disposition no_rules r [] (fun _ => "Latin") true label false false false [] = (zs, Ok tt) /\ ~ In (vl_cp w) (map ls_cp zs).
Proof.
  exists (built twice_ops), [97; 98].
  destruct (label_variants no_rules (built twice_ops) (fun _ => "Latin") [97; 98] false) as [ws|] eqn:Ews; [|vm_compute in Ews; discriminate].
  assert (Hw : exists w, In w ws /\ vl_cp w = [120; 121] /\ vl_disp w = [Some "allocatable"; Some "allocatable"]).
  { vm_compute in Ews. injection Ews as <-. eexists. split; [do 5 right; left; reflexivity|]. split; reflexivity. }
  destruct Hw as [w [Hw1 [Hw2 Hw3]]]. exists ws, w.
  destruct (judge_spec no_rules (built twice_ops) [] (built_reachable _) [97; 98] w ltac:(congruence)) as [z [J1 J2]]. exists z. eexists.
  split; [apply built_reachable|]. split; auto. split; auto. split; [congruence|]. split; auto. split.
  - unfold judge in J1. rewrite Hw2, Hw3 in J1. set (e := test_label_eligible no_rules (built twice_ops) [] [120; 121] (negb (cps_eqb [120; 121] [97; 98]))) in J1. vm_compute in e. subst e. cbn [bind el_ok negb] in J1.
    destruct (vl_only w); vm_compute in J1; injection J1 as <-; reflexivity.
  - split; [vm_compute; reflexivity|]. rewrite Hw2. vm_compute. intuition discriminate.
Qed.

(** Wrappers from reachability. *)
Lemma variants_exact_reach : forall rm r script label, reachable r -> label <> [] ->
  exists ws, label_variants rm r script label false = Some ws /\
    (forall w, In w ws -> exists l, replacement rm (considered rm r) [] label l /\ produced l /\ reports w l) /\
    (forall l, replacement rm (considered rm r) [] label l -> produced l -> exists w, In w ws /\ reports w l).
Proof. intros rm r script label Hr. exact (variants_exact rm r script (reachable_wf r Hr) label). Qed.
Lemma considered_start : forall rm r done rest ch, considered rm r done rest ch -> entry r ch /\ starts ch rest.
Proof.
  intros rm r done rest ch [H|[s [_ [_ [H1 [H2 _]]]]]]; auto. destruct H as [[H1 [_ [H2 _]]]|[_ [H1 [H2 _]]]]; auto.
Qed.
(** Soundness with or without hiding. *)
Lemma perms_shape : forall rm script done ch tail first flt p, In p (char_perms rm script done (ch_cp ch ++ tail) first flt ch) ->
  (exists v, usable rm done tail ch v /\ pp p = PVar v /\ pds p = ds_of (PVar v) /\ pisv p = true) \/
  (pp p = PChar ch /\ pds p = [] /\ pisv p = false).
Proof.
  intros rm script done ch tail first flt p H. unfold char_perms, ch_len in H. rewrite skipn_app_len in H.
  set (vs := flat_map (var_perm rm script done tail first flt) (get_variants ch)) in H.
  assert (Hp : (pp p = PChar ch /\ pds p = [] /\ pisv p = false) \/ In p vs).
  { destruct (negb (existsb (is_refl_perm ch) vs) && _)%bool; auto. destruct H as [<-|H]; auto. }
  destruct Hp as [Hp|Hp]; [right; exact Hp|left]. apply in_flat_map in Hp. destruct Hp as [v [Hv Hp]]. exists v.
  assert (Hk : forall f, In p (if ctx_var rm v (done ++ v_cp v ++ tail) (length done)
      then [(PVar v, match v_type v with None => [] | Some t => [Some t] end, true, f)] else []) ->
      usable rm done tail ch v /\ pp p = PVar v /\ pds p = ds_of (PVar v) /\ pisv p = true).
  { intros f Hf. destruct (ctx_var rm v (done ++ v_cp v ++ tail) (length done)) eqn:E; [|contradiction]. destruct Hf as [<-|[]]. split; [|auto]. apply usable_dec; auto. }
  unfold var_perm in Hp. destruct flt as [f|]; [|eauto]. destruct (first && cp_in_other script f (v_cp v))%bool; [eauto|].
  destruct (negb (cp_in_base script f (v_cp v))); [contradiction|eauto].
Qed.
Definition plainly (x : char * perm) : char * piece := (fst x, pp (snd x)).
Lemma run_sound : forall rm r script done rest first flt l, run rm r script done rest first flt l ->
  free_replacement rm r done rest (map plainly l) /\ out l = out (map canon (map plainly l)).
Proof.
  intros rm r script done rest first flt l H. induction H as [done ch first flt p Hc Hp|done ch tail first flt p l Hc Hp Hrun [IH1 IH2]].
  - pose proof (proj1 (considered_start _ _ _ _ _ Hc)) as He. rewrite <- (app_nil_r (ch_cp ch)) in Hp. apply perms_shape in Hp.
    rewrite <- (app_nil_r (ch_cp ch)). unfold plainly. cbn [map fst snd]. destruct Hp as [[v [H1 [H2 [H3 H4]]]]|[H2 [H3 H4]]]; rewrite H2; (split; [constructor; auto; constructor|]); cbn [map canon out fst snd]; destruct p as [[[pc ds] iv] fl]; cbn in *; subst; reflexivity.
  - pose proof (proj1 (considered_start _ _ _ _ _ Hc)) as He. apply perms_shape in Hp. cbn [map]. unfold plainly at 1 3. cbn [fst snd].
    assert (Hl : l <> []) by (inversion Hrun; discriminate).
    assert (E : forall m, m <> [] -> forall c q, out ((c, q) :: m) = mkVL (piece_cp (pp q) ++ vl_cp (out m)) (vl_disp (out m) ++ pds q) (pisv q && vl_only (out m)) (pp q :: vl_chars (out m))).
    { intros m Hm c q. destruct m; [contradiction|reflexivity]. }
    destruct p as [[[pc ds] iv] fl]. cbn [pp pds pisv pflt] in *.
    destruct Hp as [[v [H1 [-> [-> ->]]]]|[-> [-> ->]]]; (split; [constructor; auto|]); cbn [map]; unfold canon at 1; cbn [fst snd]; rewrite !E by (destruct l; [contradiction|discriminate]); rewrite IH2; reflexivity.
Qed.
Lemma generated_sound : forall rm r script label hide ws w, reachable r -> label <> [] ->
  label_variants rm r script label hide = Some ws -> In w ws ->
  exists l, free_replacement rm r [] label l /\ reports w l.
Proof.
  intros rm r script label hide ws w Hr Hne H Hw. unfold label_variants in H. revert H.
  set (f := if hide then match label with [] => None | _ => Some (mixed_filter r script label) end else None). intro H.
  destruct (gen_spec rm r script (reachable_wf r Hr) (length label) [] label false true f (le_n _)) as [ws' [W1 W2]].
  assert (ws' = ws) by congruence. subst ws'. apply W2 in Hw. destruct Hw as [l [L1 [_ ->]]]. destruct (run_sound _ _ _ _ _ _ _ _ L1) as [E1 E2].
  exists (map plainly l). split; auto. rewrite E2. apply out_reports. inversion L1; discriminate.
Qed.
Lemma variants_complete_reach : forall rm r script label l, reachable r -> sequences_mapped r -> label <> [] ->
  free_replacement rm r [] label l -> result l <> label ->
  exists ws w, label_variants rm r script label false = Some ws /\ In w ws /\ vl_cp w = result l.
Proof. intros rm r script label l Hr Hs. apply variants_complete; auto. apply reachable_wf; auto. Qed.
Lemma hidden_variants_reach : forall rm r script label, reachable r -> label <> [] ->
  exists ws, label_variants rm r script label true = Some ws /\
    forall w, In w ws -> exists p0 l, vl_chars w = p0 :: l /\ vl_cp w = flat_map piece_cp (p0 :: l) /\
      ((forall v, p0 = PVar v -> piece_within script (permitted (label_script script label)) p0) /\
       (forall p, In p l -> piece_within script (permitted (label_script script label)) p) \/
       (exists v x t, p0 = PVar v /\ v_cp v = x :: t /\
          (forall y, In y (v_cp v) -> In (script y) (other_scripts r script label)) /\
          (forall p, In p l -> piece_within script (permitted (fun s => s = script x)) p))).
Proof. intros rm r script label Hr. exact (hidden_variants rm r script (reachable_wf r Hr) label). Qed.
(** With single code point variants each label is inside one permitted set. *)
Lemma hidden_single : forall rm r script label ws w, reachable r -> label <> [] ->
  (forall ch v, entry r ch -> In v (get_variants ch) -> length (v_cp v) = 1%nat) ->
  label_variants rm r script label true = Some ws -> In w ws ->
  exists p0 l, vl_chars w = p0 :: l /\ vl_cp w = flat_map piece_cp (p0 :: l) /\
    ((forall v, p0 = PVar v -> piece_within script (permitted (label_script script label)) p0) /\
     (forall p, In p l -> piece_within script (permitted (label_script script label)) p) \/
     exists s, forall p, In p (p0 :: l) -> piece_within script (permitted (fun t => t = s)) p).
Proof.
  intros rm r script label ws w Hr Hne Hlen H Hw. destruct (hidden_variants_reach rm r script label Hr Hne) as [ws' [H1 H2]]. assert (ws' = ws) by congruence. subst ws'.
  destruct (H2 w Hw) as [p0 [l [E1 [E2 E3]]]]. exists p0, l. split; auto. split; auto. destruct E3 as [E3|[v [x [t [F1 [F2 [F3 F4]]]]]]]; [left; auto|].
  right. exists (script x). intros p [<-|Hp]; [|auto]. rewrite F1. intros y Hy. cbn [piece_cp] in Hy. left. rewrite F2 in Hy. destruct Hy as [<-|Hy]; auto.
  exfalso. assert (Hv : length (v_cp v) = 1%nat).
  { destruct (generated_sound rm r script label true ws w Hr Hne H Hw) as [l0 [G1 [_ [G2 _]]]].
    rewrite E1, F1 in G2. destruct l0 as [|[ch p1] l0]; [discriminate|]. cbn in G2. injection G2 as <- _.
    inversion G1; subst. eapply Hlen; eauto. match goal with U : usable _ _ _ _ _ |- _ => apply U end. }
  rewrite F2 in Hv. destruct t; [contradiction|discriminate].
Qed.
Lemma same_script_kept_reach : forall rm r script label, reachable r -> label <> [] ->
  exists ws, label_variants rm r script label true = Some ws /\
    forall l, replacement rm (considered rm r) [] label l -> produced l ->
      (forall x, In x l -> piece_within script (permitted (label_script script label)) (snd x)) ->
      exists w, In w ws /\ reports w l.
Proof. intros rm r script label Hr. exact (same_script_kept rm r script (reachable_wf r Hr) label). Qed.
Lemma longest_match_unique_reach : forall rm r label i a ia b ib,
  longest_match rm r label i a ia -> longest_match rm r label i b ib -> a = b /\ map fst ia = map fst ib.
Proof. intros rm r label i a ia b ib H G. eapply longest_match_deterministic; eauto. Qed.
Lemma single_sample : exists e, test_label_eligible no_rules (built simple_ops) [] [97; 98; 100] false = Ok e /\ el_invalid e = [] /\
  (forall ch, entry (built simple_ops) ch -> length (ch_cp ch) = 1%nat) /\ exists l, cut no_rules (built simple_ops) [97; 98; 100] 0 l.
Proof.
  eexists. split; [vm_compute; reflexivity|]. split; [reflexivity|]. split; [exact (pv_single _ plain_sample)|].
  destruct (label_partitions no_rules (built simple_ops) [97; 98; 100]) as [[|p ps]|] eqn:E; try (vm_compute in E; discriminate).
  exists p. eapply built_cut; eauto; [discriminate|left; reflexivity].
Qed.
Lemma listed_derivation : forall rm r acts script label inc hide wl zs o ws z,
  reachable r -> label <> [] -> (length label <= 63)%nat ->
  label_variants rm r script label hide = Some ws ->
  compute_label_disposition rm r acts script true label inc hide false wl = (zs ++ [o], Ok tt) ->
  In z zs -> exists w, In w ws /\ vl_cp w = ls_cp z /\ judged rm r acts label w z.
Proof.
  intros rm r acts script label inc hide wl zs o ws z Hr Hne Hlen Hws Hc Hz.
  destruct (listing_spec rm r acts script Hr label inc hide false wl Hne Hlen) as [ws' [zs' [o' [H1 [H2 [_ [_ [_ [H3 _]]]]]]]]].
  assert (ws' = ws) by congruence. subst ws'. rewrite Hc in H2. injection H2 as E. apply app_inj_tail in E. destruct E as [<- <-].
  destruct (H3 z Hz) as [w [W1 [_ [W2 _]]]]. exists w. split; auto. split; auto. symmetry. apply W2.
Qed.
