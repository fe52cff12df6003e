(** Concrete reviews. *)
From Coq Require Import Lia.
From Verif Require Import Base BaseFacts CharModel RepSpec RepProofs ActionModel LgrModel LgrSpec LgrProofs LgrReach CompareModel ValidateModel ValidateSpec ValidateProofs ValidateFinal.
From Verif Require Import UtilsModel LabelSpec ClassModel ReviewModel ReviewSpec ReviewSets ReviewWitness LangModel LangSpec LangWitness GeneralModel WholeModel WholeSpec WholeVariants WholeProofs WholeTotal WholeMore.
Open Scope N_scope.
Open Scope string_scope.
Open Scope list_scope.

Definition w_world : world :=
  mkWorld lib two (fun _ => false) (fun _ => false) (fun _ => false) (fun _ => false) (fun _ => "...") (fun _ => false) 5 (fun _ => Ok true) as_is as_is as_is.
Definition w_db : ClassModel.unidb := mkDb 100 (fun _ _ => None).
Definition w_table (languages : list cps) (ops : list lgr_op) (classes : dict string (bool * cls)) (rules : dict string string) (actions : list action) : idn_table :=
  mkTable languages (lgr_of ops) (Some w_db) classes rules actions.
Definition w_class (n : string) (l : list N) : string * (bool * cls) := (n, (false, ClPlain (Some n) None None None l)).
Definition a_valid : action := mkAction "valid" None None None None None.
Definition a_blocked : action := mkAction "blocked" None None None None None.
(** The overall results, the result on the order of the actions, the checks. *)
Definition outcome (x : res (whole * summary)) : option (list string * review * list (option (bool * bool)) * list string) :=
  match x with
  | Ok (w, s) => Some ([fst (su_tags s); fst (su_repertoire s); fst (su_variants s); fst (su_classes s); fst (su_rules s); fst (su_actions s)],
                       wh_sequence w, wh_checks w, map kl_name (wh_classes w))
  | Raise _ => None
  end.
Definition matches : list string := ["MATCH"; "MATCH"; "MATCH"; "MATCH"; "MATCH"; "MATCH"].
Lemma outcome_match : forall x q c k, outcome x = Some (matches, q, c, k) -> exists w s, x = Ok (w, s) /\ all_match s /\ wh_sequence w = q /\ wh_checks w = c /\ map kl_name (wh_classes w) = k.
Proof.
  intros [[w s]|e] q c k H; [|discriminate H]. exists w, s. split; [reflexivity|]. cbn [outcome] in H. injection H as H1 H2 H3 H4 H5 H6 H7 H8 H9.
  split; [repeat split; assumption | auto].
Qed.
Lemma symmetric_decided : forall g, lgr_reachable g -> edges_back (lg_rep g) = true -> symmetric (lg_rep g).
Proof.
  intros g R H a b T. pose proof (edges_back_sound _ (lgr_reachable_wf _ R) H a b (proj1 (has_target_edge _ _ _) T)) as Eb. apply has_target_edge in Eb.
  split; [|exact Eb]. destruct Eb as (v & ch & L & _). congruence.
Qed.
Definition w_idn : idn_table := w_table [txt "en"] (letters ++ both 2 3 ++ both 4 5) [w_class "vowels" [1; 2]] [("final", "x")] [a_valid; a_blocked].
Definition w_ref : idn_table := w_table [txt "en"] (letters ++ both 1 2 ++ both 1 3 ++ both 2 3) [w_class "vowels" [1; 2]; w_class "marks" [9]] [("final", "y")] [a_valid].

Lemma w_orders : any_order (wo_strings w_world) /\ any_order (wo_variants w_world) /\ any_order (wo_cps w_world).
Proof. split; [|split]; apply as_is_order. Qed.
Lemma no_seq_decided : forall g, lgr_reachable g -> forallb (fun ch => negb (is_seq ch)) (all_chars (lg_rep g)) = true -> forall c ch, lookup (lg_rep g) c = Some ch -> is_seq ch = false.
Proof.
  intros g R H c ch L. rewrite forallb_forall in H. rewrite lookup_lk in L. pose proof (lk_cp _ _ _ L) as Ec.
  specialize (H ch (proj2 (in_all_chars_lk _ _ (lgr_reachable_wf _ R)) ltac:(rewrite Ec; exact L))). destruct (is_seq ch); [discriminate H | reflexivity].
Qed.
Lemma one_class_fine : forall t n l, it_db t = Some w_db -> it_classes t = [w_class n l] -> classes_fine (wo_runtime w_world) (wo_fuel w_world) t.
Proof.
  intros t n l Hd Hc. exists w_db. split; [exact Hd|]. intros m k e Hk He. unfold defines in Hk. rewrite Hc in Hk. cbn [dget w_class fst snd] in Hk. unfold w_class in Hk. cbn [dget] in Hk.
  destruct (String.eqb m n); [|discriminate Hk]. injection Hk as <-. discriminate He.
Qed.
Lemma two_classes_fine : forall t n l n' l', it_db t = Some w_db -> it_classes t = [w_class n l; w_class n' l'] -> classes_fine (wo_runtime w_world) (wo_fuel w_world) t.
Proof.
  intros t n l n' l' Hd Hc. exists w_db. split; [exact Hd|]. intros m k e Hk He. unfold defines in Hk. rewrite Hc in Hk. unfold w_class in Hk. cbn [dget] in Hk.
  destruct (String.eqb m n); [injection Hk as <-; discriminate He|]. destruct (String.eqb m n'); [|discriminate Hk]. injection Hk as <-. discriminate He.
Qed.
Lemma w_hypotheses : lgr_reachable (it_lgr w_idn) /\ lgr_reachable (it_lgr w_ref) /\ symmetric (it_rep w_idn) /\ symmetric (it_rep w_ref) /\
  classes_fine (wo_runtime w_world) (wo_fuel w_world) w_idn /\ classes_fine (wo_runtime w_world) (wo_fuel w_world) w_ref /\
  (forall c ch, lookup (it_rep w_idn) c = Some ch -> is_seq ch = false) /\ (forall l, exists b, wo_test w_world l = Ok b).
Proof.
  split; [apply lgr_of_reachable|]. split; [apply lgr_of_reachable|].
  split; [apply symmetric_decided; [apply lgr_of_reachable | vm_compute; reflexivity]|]. split; [apply symmetric_decided; [apply lgr_of_reachable | vm_compute; reflexivity]|].
  split; [eapply one_class_fine; reflexivity|]. split; [eapply two_classes_fine; reflexivity|].
  split; [apply no_seq_decided; [apply lgr_of_reachable | vm_compute; reflexivity]|]. intros l. exists true. reflexivity.
Qed.
Lemma w_outcome : outcome (review_lgr w_world w_idn w_ref) =
  Some (["MATCH"; "MATCH"; "REVIEW"; "MATCH"; "MANUAL CHECK"; "MANUAL CHECK"], RMatch, [Some (true, true); Some (true, true)], ["vowels"]).
Proof. vm_compute. reflexivity. Qed.
Lemma w_self : exists w s, review_lgr w_world w_idn w_idn = Ok (w, s) /\ all_match s /\ map kl_name (wh_classes w) = ["vowels"] /\ wh_checks w = [Some (true, true); Some (true, true)].
Proof.
  assert (H : outcome (review_lgr w_world w_idn w_idn) = Some (matches, RMatch, [Some (true, true); Some (true, true)], ["vowels"])) by (vm_compute; reflexivity).
  destruct (outcome_match _ _ _ _ H) as (w & s & E & M & _ & C & K). exists w, s. auto.
Qed.
Lemma w_self_hypotheses : no_ranges (it_rep w_idn) /\ one_rule (it_rep w_idn) /\ (List.length (it_languages w_idn) <= 1)%nat.
Proof.
  split; [|split; [|cbn; lia]].
  - intros c ch L. rewrite lookup_lk in L. pose proof (lk_cp _ _ _ L) as Ec. assert (Hin : In ch (all_chars (it_rep w_idn))) by (apply in_all_chars_lk; [apply lgr_reachable_wf, lgr_of_reachable | rewrite Ec; exact L]).
    revert Hin. assert (H : forallb (fun ch => negb (is_range ch)) (all_chars (it_rep w_idn)) = true) by (vm_compute; reflexivity). rewrite forallb_forall in H. intros Hin. specialize (H ch Hin). destruct (is_range ch); [discriminate H | reflexivity].
  - intros c ch L. rewrite lookup_lk in L. pose proof (lk_cp _ _ _ L) as Ec. assert (Hin : In ch (all_chars (it_rep w_idn))) by (apply in_all_chars_lk; [apply lgr_reachable_wf, lgr_of_reachable | rewrite Ec; exact L]).
    assert (H : forallb (fun ch => negb (truthy (ch_when ch))) (all_chars (it_rep w_idn)) = true) by (vm_compute; reflexivity). rewrite forallb_forall in H. specialize (H ch Hin). left. destruct (truthy (ch_when ch)); [discriminate H | reflexivity].
Qed.

(** ** What the summary does not tell *)
Lemma order_not_told : exists o idn ref w s label, review_lgr o idn ref = Ok (w, s) /\ all_match s /\ wh_sequence w = RManual /\
  fst (apply_actions (fun _ _ _ => false) (it_actions idn) label [] false) <> fst (apply_actions (fun _ _ _ => false) (it_actions ref) label [] false).
Proof.
  set (i := w_table [txt "en"] letters [] [] [a_valid; a_blocked]). set (r := w_table [txt "en"] letters [] [] [a_blocked; a_valid]).
  assert (H : outcome (review_lgr w_world i r) = Some (matches, RManual, [], [])) by (vm_compute; reflexivity).
  destruct (outcome_match _ _ _ _ H) as (w & s & E & M & Q & _). exists w_world, i, r, w, s, [1]. split; [exact E|]. split; [exact M|]. split; [exact Q|]. vm_compute. discriminate.
Qed.
Lemma reflexive_not_told : exists o idn ref w s c, lgr_reachable (it_lgr idn) /\ lgr_reachable (it_lgr ref) /\ symmetric (it_rep idn) /\ symmetric (it_rep ref) /\
  review_lgr o idn ref = Ok (w, s) /\ all_match s /\ has_target (it_rep ref) c c /\ ~ has_target (it_rep idn) c c.
Proof.
  set (i := w_table [txt "en"] letters [] [] []). set (r := w_table [txt "en"] (letters ++ [lvart [1] [1] "blocked"]) [] [] []).
  assert (H : outcome (review_lgr w_world i r) = Some (matches, RManual, [], [])) by (vm_compute; reflexivity).
  destruct (outcome_match _ _ _ _ H) as (w & s & E & M & _). exists w_world, i, r, w, s, [1]. split; [apply lgr_of_reachable|]. split; [apply lgr_of_reachable|].
  split; [apply symmetric_decided; [apply lgr_of_reachable | vm_compute; reflexivity]|]. split; [apply symmetric_decided; [apply lgr_of_reachable | vm_compute; reflexivity]|].
  split; [exact E|]. split; [exact M|]. split.
  - apply has_target_edge, edgeb_iff. vm_compute. reflexivity.
  - intros T. apply has_target_edge, edgeb_iff in T. vm_compute in T. discriminate T.
Qed.
Lemma asymmetry_not_told : exists o idn w s, lgr_reachable (it_lgr idn) /\ ~ symmetric (it_rep idn) /\ review_lgr o idn idn = Ok (w, s) /\ all_match s /\ wh_checks w = [Some (false, true)].
Proof.
  set (i := w_table [txt "en"] (letters ++ [lvart [1] [2] "blocked"]) [] [] []).
  assert (H : outcome (review_lgr w_world i i) = Some (matches, RManual, [Some (false, true)], [])) by (vm_compute; reflexivity).
  destruct (outcome_match _ _ _ _ H) as (w & s & E & M & _ & C & _). exists w_world, i, w, s. split; [apply lgr_of_reachable|]. split; [|auto].
  intros Sy. assert (T : has_target (it_rep i) [1] [2]) by (apply has_target_edge, edgeb_iff; vm_compute; reflexivity).
  apply Sy in T. destruct T as [_ T]. apply has_target_edge, edgeb_iff in T. vm_compute in T. discriminate T.
Qed.
Lemma languages_self : exists o t w s, lgr_reachable (it_lgr t) /\ review_lgr o t t = Ok (w, s) /\ overall (su_tags s) RReview.
Proof.
  set (t := w_table [txt "en"; txt "fr"] letters [] [] []). exists w_world, t.
  assert (H : option_map (fun x => hd "" (fst (fst (fst x)))) (outcome (review_lgr w_world t t)) = Some "REVIEW") by (vm_compute; reflexivity).
  destruct (review_lgr w_world t t) as [[w s]|e]; [|discriminate H]. exists w, s. split; [apply lgr_of_reachable|]. split; [reflexivity|]. cbn in H. injection H as H. exact H.
Qed.
(** ** What stops it *)
Lemma sequence_stops : exists o idn ref c, lgr_reachable (it_lgr idn) /\ lgr_reachable (it_lgr ref) /\ symmetric (it_rep idn) /\
  classes_fine (wo_runtime o) (wo_fuel o) idn /\ classes_fine (wo_runtime o) (wo_fuel o) ref /\ has_target (it_rep ref) [1] c /\ lookup (it_rep ref) c = None /\ review_lgr o idn ref = Raise (NotInLGR c).
Proof.
  exists w_world, (w_table [txt "en"] letters [w_class "k" [1]] [] []), (w_table [txt "en"] (letters ++ [lvart [1] [5; 6] "blocked"]) [w_class "k" [1]] [] []), [5; 6].
  split; [apply lgr_of_reachable|]. split; [apply lgr_of_reachable|]. split; [apply symmetric_decided; [apply lgr_of_reachable | vm_compute; reflexivity]|].
  split; [eapply one_class_fine; reflexivity|]. split; [eapply one_class_fine; reflexivity|]. split; [apply has_target_edge, edgeb_iff; vm_compute; reflexivity|]. split; vm_compute; reflexivity.
Qed.
Definition hyphens : idn_table := w_table [txt "en"] [lcp [45]; lcp [109]; lcp [50]] [] [] [].
Lemma general_not_told : exists o t w s, lgr_reachable (it_lgr t) /\ review_lgr o t t = Ok (w, s) /\ all_match s /\ ge_hyphen (wh_general w) = (true, Some false).
Proof.
  assert (H : outcome (review_lgr w_world hyphens hyphens) = Some (matches, RManual, [], [])) by (vm_compute; reflexivity).
  assert (G : match review_lgr w_world hyphens hyphens with Ok (w, s) => Some (ge_hyphen (wh_general w)) | _ => None end = Some (true, Some false)) by (vm_compute; reflexivity).
  destruct (outcome_match _ _ _ _ H) as (w & s & E & M & _). exists w_world, hyphens, w, s. split; [apply lgr_of_reachable|]. rewrite E in G. split; [exact E|]. split; [exact M|]. injection G as G. exact G.
Qed.
(** The table has the sequence it may be missing. *)
Lemma notice_wrong : exists o idn ref w s i r rows x c, lgr_reachable (it_lgr idn) /\ lgr_reachable (it_lgr ref) /\ symmetric (it_rep idn) /\ symmetric (it_rep ref) /\
  review_lgr o idn ref = Ok (w, s) /\ In (i, r, rows) (wh_variants w) /\ In x rows /\
  snd (vr_fwd x) = ("Variant set exists in the reference LGR" ++ may_be_missing (wo_shown o c))%string /\ lookup (it_rep idn) c <> None.
Proof.
  set (i := w_table [txt "en"] (letters ++ [lcp [4; 5]]) [] [] []). set (r := w_table [txt "en"] (letters ++ [lcp [4; 5]; lvart [1] [4; 5] "blocked"; lvart [4; 5] [1] "blocked"]) [] [] []).
  assert (H : match review_lgr w_world i r with Ok (w, _) => map (fun p => (fst (fst p), snd (fst p), map (fun x => snd (vr_fwd x)) (snd p))) (wh_variants w) | Raise _ => [] end =
    [([], [[1]; [4; 5]], [("Variant set exists in the reference LGR" ++ may_be_missing "...")%string])]) by (vm_compute; reflexivity).
  destruct (review_lgr w_world i r) as [[w s]|e] eqn:E; [|discriminate H]. destruct (wh_variants w) as [|[[i0 r0] rows] l] eqn:V; [discriminate H|]. cbn [map fst snd] in H.
  injection H as H1 H2 H3 _. destruct rows as [|x rows]; [discriminate H3|]. cbn [map] in H3. injection H3 as H3 _.
  exists w_world, i, r, w, s, i0, r0, (x :: rows), x, [4; 5]. split; [apply lgr_of_reachable|]. split; [apply lgr_of_reachable|].
  split; [apply symmetric_decided; [apply lgr_of_reachable | vm_compute; reflexivity]|]. split; [apply symmetric_decided; [apply lgr_of_reachable | vm_compute; reflexivity]|].
  split; [exact E|]. split; [rewrite V; left; reflexivity|]. split; [left; reflexivity|]. split; [exact H3|]. vm_compute. discriminate.
Qed.
Lemma w_notice : exists w s, review_lgr w_world (w_table [txt "en"] letters [] [] []) (w_table [txt "en"] (letters ++ [lcp [4; 6]; lvart [1] [4; 6] "blocked"; lvart [4; 6] [1] "blocked"]) [] [] []) = Ok (w, s) /\
  map (fun p => (fst p, map (fun x => vr_fwd x) (snd p))) (wh_variants w) = [([], [[1]; [4; 6]], [(RReview, ("Variant set exists in the reference LGR" ++ may_be_missing "...")%string)])].
Proof.
  match goal with |- exists w s, ?z = _ /\ _ => assert (H : match z with Ok (w, _) => map (fun p => (fst p, map (fun x => vr_fwd x) (snd p))) (wh_variants w) | Raise _ => [] end =
    [([], [[1]; [4; 6]], [(RReview, ("Variant set exists in the reference LGR" ++ may_be_missing "...")%string)])]) by (vm_compute; reflexivity); destruct z as [[w s]|e]; [|discriminate H] end.
  exists w, s. auto.
Qed.
Fixpoint distinctb (l : list cps) : bool := match l with [] => true | x :: l' => (negb (memb cps_eqb x l') && distinctb l')%bool end.
Lemma distinctb_one : forall l, distinctb (map v_cp l) = true -> forall v x, In v l -> In x l -> v_cp v = v_cp x -> v = x.
Proof.
  induction l as [|a l IH]; intros H v x Hv Hx E; [destruct Hv|]. cbn [map distinctb] in H. apply Bool.andb_true_iff in H. destruct H as [H1 H2].
  assert (N : forall y, In y l -> v_cp y <> v_cp a).
  { intros y Hy Ey. assert (K : memb cps_eqb (v_cp a) (map v_cp l) = true) by (apply (memb_In _ _ cps_eqb_eq), in_map_iff; exists y; auto). rewrite K in H1. discriminate H1. }
  destruct Hv as [<- | Hv], Hx as [<- | Hx]; [reflexivity | exfalso; exact (N x Hx (eq_sym E)) | exfalso; exact (N v Hv E) | exact (IH H2 v x Hv Hx E)].
Qed.
Lemma w_types : any_order (wo_variants w_world) /\ one_variant (it_rep w_idn) /\ no_empty_type (it_rep w_idn).
Proof.
  assert (W : wf_rep (it_rep w_idn)) by (apply lgr_reachable_wf, lgr_of_reachable). split; [apply as_is_order|].
  assert (H : forallb (fun ch => distinctb (map v_cp (get_variants ch)) && forallb (fun v => match v_type v with Some "" => false | _ => true end) (get_variants ch))%bool (all_chars (it_rep w_idn)) = true) by (vm_compute; reflexivity).
  rewrite forallb_forall in H.
  assert (G : forall a b v, mapping (it_rep w_idn) a b v -> exists ch, lk (it_rep w_idn) a = Some ch /\ In v (get_variants ch) /\ v_cp v = b /\ distinctb (map v_cp (get_variants ch)) = true /\ v_type v <> Some "").
  { intros a b v M. apply mapping_lk in M. destruct M as (ch & L & Hv & Hb). exists ch. split; [exact L|]. split; [exact Hv|]. split; [exact Hb|].
    pose proof (lk_cp _ _ _ L) as Ec. assert (Hin : In ch (all_chars (it_rep w_idn))) by (apply (in_all_chars_lk _ _ W); rewrite Ec; exact L).
    specialize (H ch Hin). apply Bool.andb_true_iff in H. destruct H as [H1 H2]. split; [exact H1|]. rewrite forallb_forall in H2. specialize (H2 v Hv). intros E. rewrite E in H2. discriminate H2. }
  split.
  - intros a b v x Mv Mx. apply G in Mv. apply G in Mx. destruct Mv as (ch & L & Hv & Ev & D & _). destruct Mx as (ch' & L' & Hx & Ex & _). rewrite L in L'. injection L' as <-.
    apply (distinctb_one _ D); congruence.
  - intros a b v M. apply G in M. destruct M as (ch & _ & _ & _ & _ & M). exact M.
Qed.

Lemma w_before : class_before "vowels" "#__internal_tag_a" /\ ~ class_before "#__internal_tag_a" "vowels" /\ class_before "marks" "vowels" /\ ~ class_before "vowels" "marks".
Proof. rewrite <- !leb_before. vm_compute. repeat split; discriminate. Qed.
Lemma w_remarks : exists w s, review_lgr w_world w_idn w_ref = Ok (w, s) /\ action_lines w = [(RMatch, "Exact Match (action name and content are the same)"); (RManual, "Mismatch (additional action)")].
Proof.
  assert (H : match review_lgr w_world w_idn w_ref with Ok (w, _) => action_lines w | _ => [] end = [(RMatch, "Exact Match (action name and content are the same)"); (RManual, "Mismatch (additional action)")]) by (vm_compute; reflexivity).
  destruct (review_lgr w_world w_idn w_ref) as [[w s]|]; [|discriminate H]. exists w, s. auto.
Qed.
