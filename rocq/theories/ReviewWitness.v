(** Where the reports of the IDN review go wrong, and samples. *)
From Coq Require Import Permutation Sorted Lia.
From Verif Require Import Base BaseFacts CharModel RepSpec RepProofs VarSetSpec VarSetProofs ActionModel LgrModel LgrSpec LgrReach LabelSpec CompareModel CompareProofs ValidateFinal.
From Verif Require Import ReviewModel ReviewSpec ReviewSets ReviewVariants ReviewSelf ReviewRules ReviewPairing.
Open Scope string_scope.
Open Scope list_scope.
Open Scope N_scope.

(** ** The report on variants is produced *)
Lemma missing_sequence_In : forall ref_set ir c l, missing_sequence ref_set ir = Some (c, l) -> In c ref_set.
Proof.
  induction ref_set as [|x ref_set IH]; intros ir c l H; [discriminate H|]. cbn [missing_sequence] in H.
  destruct (Nat.ltb 1 (List.length x)); [|right; exact (IH _ _ _ H)]. destruct (set_inter N.eqb x (all_single ir)); [right; exact (IH _ _ _ H)|].
  injection H as <- _. left. reflexivity.
Qed.
Lemma sets_known : forall r sets s c, wf_rep r -> (forall a b, edge r true a b -> edge r true b a) -> get_variant_sets r true = Some sets ->
  In s sets -> In c s -> lookup r c <> None.
Proof.
  intros r sets s c Hr Sy Hs Hin Hc. destruct (variant_sets_spec r true Hr) as (sets' & E & _ & H). rewrite Hs in E. injection E as <-.
  apply H in Hin. destruct Hin as (_ & _ & a & Ha & Hreach). apply Hreach in Hc. clear - Hc Ha Sy.
  induction Hc as [a|a b c He Hc IH]; [exact Ha|]. apply IH. apply Sy in He. destruct He as (ch & v & L & _). congruence.
Qed.
Lemma reports_ok : forall order oc ps ir rr, wf_rep ir -> wf_rep rr ->
  (forall k i r c, In (k, (i, r)) ps -> In c i \/ In c r -> c <> []) -> (forall k i r c, In (k, (i, r)) ps -> In c r -> lookup rr c <> None) ->
  exists l, reports_for order oc ps ir rr = Ok l.
Proof.
  intros order oc. induction ps as [|[k [i r]] ps IH]; intros ir rr Hi Hr H Hk; [exists []; reflexivity|]. cbn [reports_for]. unfold set_report.
  assert (El : exists o, look_sequence i r ir rr = Ok o).
  { unfold look_sequence. destruct i; [|eexists; reflexivity]. destruct (missing_sequence r ir) as [[c l0]|] eqn:Em; [|eexists; reflexivity].
    pose proof (missing_sequence_In _ _ _ _ Em) as Hin. pose proof (Hk k [] r c (or_introl eq_refl) Hin) as Hl. rewrite lookup_lk in Hl.
    rewrite get_char_lk; [|exact (H k [] r c (or_introl eq_refl) (or_intror Hin))]. destruct (lk rr c); [eexists; reflexivity | contradiction]. }
  destruct El as (o & ->). cbn [bind].
  match goal with |- context [set_rows order oc ?cs ?a ?b ir rr [] []] => destruct (set_rows_ok order oc cs a b ir rr [] [] Hi Hr) as (rows & ->) end.
  { intros c Hc. apply isort_In in Hc. apply (set_union_In _ cps_eqb_eq) in Hc. apply (H k i r c); [left; reflexivity | exact Hc]. }
  cbn [bind]. destruct (IH ir rr Hi Hr) as (l & ->);
    [intros k' i' r' c Hin; apply (H k' i' r' c); right; exact Hin | intros k' i' r' c Hin; apply (Hk k' i' r' c); right; exact Hin|]. cbn [bind]. eexists. reflexivity.
Qed.
Lemma report_produced : forall order oc ir rr, wf_rep ir -> wf_rep rr ->
  (forall a b, edge ir true a b -> edge ir true b a) -> (forall a b, edge rr true a b -> edge rr true b a) ->
  exists l, variant_sets_report order oc ir rr = Ok l.
Proof.
  intros order oc ir rr Hi Hr Si Sr. unfold variant_sets_report.
  destruct (variant_sets_spec ir true Hi) as (a & Ea & _). destruct (variant_sets_spec rr true Hr) as (b & Eb & _). rewrite Ea, Eb.
  destruct (pairing_ok a b (sets_family ir a Hi Si Ea) (sets_family rr b Hr Sr Eb)) as (ps & -> & _ & Hp & _). cbn [bind].
  apply reports_ok; [exact Hi | exact Hr| |].
  2:{ intros k i r c Hin Hc. destruct (Hp k i r Hin) as (_ & [-> | Ib] & _); [destruct Hc|]. exact (sets_known rr b r c Hr Sr Eb Ib Hc). }
  intros k i r c Hin Hc. destruct (Hp k i r Hin) as ([-> | Ia] & [-> | Ib] & _).
  - destruct Hc as [[] | []].
  - destruct Hc as [[] | Hc]. apply (sets_members rr b r c Hr Eb Ib Hc).
  - destruct Hc as [Hc | []]. apply (sets_members ir a i c Hi Ea Ia Hc).
  - destruct Hc as [Hc | Hc]; [apply (sets_members ir a i c Hi Ea Ia Hc) | apply (sets_members rr b r c Hr Eb Ib Hc)].
Qed.

(** ** Samples *)
Definition rep_of (ops : list lgr_op) : repertoire := lg_rep (lgr_of ops).
Lemma rep_of_wf : forall ops, wf_rep (rep_of ops).
Proof. intros ops. apply lgr_reachable_wf, lgr_of_reachable. Qed.
Definition lvart (a b : cps) (t : string) : lgr_op := LAddVariant a b (Some t) None None None [] None false false.
Definition lvarwt (a b : cps) (t : string) (w n : option string) : lgr_op := LAddVariant a b (Some t) w n None [] None false false.
Definition lcpc (c : cps) (w n : option string) : lgr_op := LAddCp c None [] [] w n None false false.
Definition as_is {A} (l : list A) : list A := l.
Lemma as_is_order : forall A, any_order (@as_is A).
Proof. intros A l. apply Permutation_refl. Qed.
Lemma rev_order : forall A, any_order (@rev A).
Proof. intros A l. apply Permutation_sym, Permutation_rev. Qed.
Definition results (x : res (list (list cps * list cps * list vrow))) : option (list (list cps * list cps * list (cps * cps * review * review))) :=
  match x with
  | Ok l => Some (map (fun p => (fst p, map (fun v => (vr_src v, vr_dst v, fst (vr_fwd v), fst (vr_rev v))) (snd p))) l)
  | Raise _ => None
  end.
Definition both (a b : N) : list lgr_op := [lvart [a] [b] "blocked"; lvart [b] [a] "blocked"].
Definition letters : list lgr_op := [lcp [1]; lcp [2]; lcp [3]; lcp [4]; lcp [5]].

(** Symmetry, decided. *)
Definition edgeb (r : repertoire) (a b : cps) : bool :=
  match lookup r a with Some ch => existsb (fun v => cps_eqb (v_cp v) b) (get_variants ch) | None => false end.
Lemma edgeb_iff : forall r a b, edgeb r a b = true <-> edge r true a b.
Proof.
  intros r a b. unfold edgeb, edge. split.
  - destruct (lookup r a) as [ch|] eqn:E; [|discriminate]. intros H. apply existsb_exists in H. destruct H as (v & Hv & E'). apply cps_eqb_eq in E'. exists ch, v. auto.
  - intros (ch & v & -> & Hv & E & _). apply existsb_exists. exists v. split; [exact Hv | apply cps_eqb_eq, E].
Qed.
Definition edges_back (r : repertoire) : bool :=
  forallb (fun ch => forallb (fun v => edgeb r (v_cp v) (ch_cp ch)) (get_variants ch)) (all_chars r).
Lemma edges_back_sound : forall r, wf_rep r -> edges_back r = true -> forall a b, edge r true a b -> edge r true b a.
Proof.
  intros r Hr H a b (ch & v & L & Hv & <- & _). unfold edges_back in H. rewrite forallb_forall in H. rewrite lookup_lk in L. pose proof (lk_cp _ _ _ L) as Ec.
  assert (Hin : In ch (all_chars r)) by (apply in_all_chars_lk; [exact Hr | rewrite Ec; exact L]). specialize (H ch Hin). rewrite forallb_forall in H.
  specialize (H v Hv). rewrite Ec in H. apply edgeb_iff, H.
Qed.
Definition ref_all : repertoire :=
  rep_of (letters ++ both 1 2 ++ both 1 3 ++ both 1 4 ++ both 1 5 ++ both 2 3 ++ both 2 4 ++ both 2 5 ++ both 3 4 ++ both 3 5 ++ both 4 5).
Definition idn_two : repertoire := rep_of (letters ++ both 2 3 ++ both 4 5).
Definition ref_three : repertoire := rep_of (letters ++ both 1 2 ++ both 1 3 ++ both 2 3).
Lemma sample_symmetric : (forall a b, edge ref_three true a b -> edge ref_three true b a) /\ (forall a b, edge idn_two true a b -> edge idn_two true b a) /\
  results (variant_sets_report as_is as_is idn_two ref_three) =
  Some [([[2]; [3]], [[1]; [2]; [3]], [([1], [2], RReview, RReview); ([1], [3], RReview, RReview); ([2], [3], RMatch, RMatch)]);
        ([[4]; [5]], [], [([4], [5], RManual, RManual)])].
Proof. split; [|split]; [apply edges_back_sound; [apply rep_of_wf | vm_compute; reflexivity] .. | vm_compute; reflexivity]. Qed.

(** ** Where the reports go wrong *)
(** Two sets of the table in one of the reference: the second is said to exist
    only in the table. *)
Lemma second_set_alone : exists ir rr l s t rows,
  (forall a b, edge ir true a b -> edge ir true b a) /\ (forall a b, edge rr true a b -> edge rr true b a) /\
  get_variant_sets rr true = Some [t] /\ incl s t /\
  variant_sets_report as_is as_is ir rr = Ok l /\ In (s, [], rows) l /\
  exists x, In x rows /\ edge rr true (vr_src x) (vr_dst x) /\ edge ir true (vr_src x) (vr_dst x) /\ vr_fwd x = (RManual, "Variant set only exists in the IDN Table").
Proof.
  exists idn_two, ref_all. do 2 eexists. exists [[1]; [2]; [3]; [4]; [5]]. eexists.
  split; [apply edges_back_sound; [apply rep_of_wf | vm_compute; reflexivity]|]. split; [apply edges_back_sound; [apply rep_of_wf | vm_compute; reflexivity]|].
  split; [vm_compute; reflexivity|]. split; [|split; [vm_compute; reflexivity|split; [right; left; reflexivity|]]].
  - apply subset_of_iff. vm_compute. reflexivity.
  - eexists. split; [do 6 right; left; reflexivity|]. cbn [vr_src vr_dst vr_fwd]. split; [apply edgeb_iff; vm_compute; reflexivity|]. split; [apply edgeb_iff; vm_compute; reflexivity | reflexivity].
Qed.
(** And two sets of the reference in one of the table: a mapping both have is
    reported as missing. *)
Lemma second_set_missing : exists ir rr l s t rows,
  (forall a b, edge ir true a b -> edge ir true b a) /\ (forall a b, edge rr true a b -> edge rr true b a) /\
  get_variant_sets ir true = Some [s] /\ incl t s /\
  variant_sets_report as_is as_is ir rr = Ok l /\ In ([], t, rows) l /\
  exists x, In x rows /\ edge rr true (vr_src x) (vr_dst x) /\ edge ir true (vr_src x) (vr_dst x) /\ vr_fwd x = (RReview, "Variant set exists in the reference LGR").
Proof.
  exists ref_all, idn_two. eexists. exists [[1]; [2]; [3]; [4]; [5]]. do 2 eexists.
  split; [apply edges_back_sound; [apply rep_of_wf | vm_compute; reflexivity]|]. split; [apply edges_back_sound; [apply rep_of_wf | vm_compute; reflexivity]|].
  split; [vm_compute; reflexivity|]. split; [|split; [vm_compute; reflexivity|split; [right; left; reflexivity|]]].
  - apply subset_of_iff. vm_compute. reflexivity.
  - eexists. split; [do 6 right; left; reflexivity|]. cbn [vr_src vr_dst vr_fwd]. split; [apply edgeb_iff; vm_compute; reflexivity|]. split; [apply edgeb_iff; vm_compute; reflexivity | reflexivity].
Qed.
(** A reference that is not symmetric stops the report. *)
Definition ref_loose : repertoire := rep_of (letters ++ [lvart [1] [3] "blocked"; lvart [1] [4] "blocked"; lvart [2] [3] "blocked"; lvart [2] [4] "blocked"]).
Definition idn_pair : repertoire := rep_of (letters ++ both 3 4).
Lemma asymmetric_stops : exists ir rr e, (forall a b, edge ir true a b -> edge ir true b a) /\ variant_sets_report as_is as_is ir rr = Raise e.
Proof.
  exists idn_pair, ref_loose. eexists. split; [apply edges_back_sound; [apply rep_of_wf | vm_compute; reflexivity] | vm_compute; reflexivity].
Qed.
(** A mapping back that the table does not have is an exact match. *)
Lemma missing_reverse : exists ir rr l i r rows x, variant_sets_report as_is as_is ir rr = Ok l /\ In (i, r, rows) l /\ In x rows /\
  edge rr true (vr_dst x) (vr_src x) /\ ~ edge ir true (vr_dst x) (vr_src x) /\ row_match x.
Proof.
  exists (rep_of [lcp [1]; lcp [2]; lvart [1] [2] "blocked"]), (rep_of ([lcp [1]; lcp [2]] ++ both 1 2)). do 5 eexists.
  split; [vm_compute; reflexivity|]. split; [left; reflexivity|]. split; [left; reflexivity|]. cbn [vr_src vr_dst].
  split; [apply edgeb_iff; vm_compute; reflexivity|]. split; [intros H; apply edgeb_iff in H; vm_compute in H; discriminate H | split; reflexivity].
Qed.
(** A mapping both have, when its target is not in the table, is said not to be
    in the reference. *)
Lemma outside_target : exists ir rr l i r rows x, variant_sets_report as_is as_is ir rr = Ok l /\ In (i, r, rows) l /\ In x rows /\
  edge rr true (vr_src x) (vr_dst x) /\ edge ir true (vr_src x) (vr_dst x) /\ vr_fwd x = (RManual, "Variant member exists in IDN Table but not in the reference LGR").
Proof.
  exists (rep_of [lcp [2]; lvart [2] [1] "blocked"]), (rep_of ([lcp [1]; lcp [2]] ++ both 1 2)). do 5 eexists.
  split; [vm_compute; reflexivity|]. split; [left; reflexivity|]. split; [left; reflexivity|]. cbn [vr_src vr_dst].
  split; [apply edgeb_iff; vm_compute; reflexivity|]. split; [apply edgeb_iff; vm_compute; reflexivity | reflexivity].
Qed.
(** With several conditional variants the result depends on the order in which a
    set is visited, and a match may hide a difference. *)
Definition several_idn : repertoire := rep_of [lcp [1]; lcp [2]; lvarwt [1] [2] "blocked" (Some "p") None; lvarwt [1] [2] "allocatable" (Some "q") None].
Definition several_ref : repertoire := rep_of [lcp [1]; lcp [2]; lvarwt [1] [2] "blocked" (Some "p") None; lvarwt [1] [2] "blocked" (Some "q") None].
Lemma order_matters : exists ir rr i r rows rows' l l',
  variant_sets_report as_is as_is ir rr = Ok l /\ variant_sets_report (@rev variant) as_is ir rr = Ok l' /\
  In (i, r, rows) l /\ In (i, r, rows') l' /\
  (forall x, In x rows -> row_match x) /\ (exists x, In x rows' /\ fst (vr_fwd x) = RReview).
Proof.
  exists several_idn, several_ref. do 6 eexists. split; [vm_compute; reflexivity|]. split; [vm_compute; reflexivity|]. split; [left; reflexivity|]. split; [left; reflexivity|]. split.
  - intros x [<- | []]. split; reflexivity.
  - eexists. split; [left; reflexivity | reflexivity].
Qed.
(** A condition of the table where the reference has another one is reported as
    missing when the latter is a [not-when]. *)
Lemma condition_said_missing : exists order idn ref a b, any_order order /\ vd_fwd idn = [a] /\ vd_fwd ref = [b] /\
  variant_context a = (When "w", NoContext) /\ variant_context b = (NoContext, NotWhen "n") /\
  variant_result order false false idn ref Forward true =
  Ok (RManual, "Variant condition rules are mismatched. The IDN Table misses the rule. If the rule is not needed for the proper variant index calculation, then this is ok").
Proof.
  exists as_is, (mkVdata [mkVariant [2] (Some "blocked") (Some "w") None None []] [] true), (mkVdata [mkVariant [2] (Some "blocked") None (Some "n") None []] [] true).
  do 2 eexists. split; [apply as_is_order|]. split; [reflexivity|]. split; [reflexivity|]. split; [reflexivity|]. split; [reflexivity|]. vm_compute. reflexivity.
Qed.
(** Code points of a variant set listed as "not in a variant set". *)
Lemma additional_all : exists ir rr sets c, get_variant_sets ir true = Some sets /\ (exists s, In s sets /\ In c s) /\ In c (additional_codepoints ir rr sets).
Proof.
  exists (rep_of ([lcp [1]; lcp [2]] ++ both 1 2)), empty_rep, [[[1]; [2]]], [1]. split; [vm_compute; reflexivity|]. split; [exists [[1]; [2]]; split; left; reflexivity|].
  vm_compute. left. reflexivity.
Qed.
Lemma additional_is : forall ir rr sets, wf_rep ir ->
  additional_codepoints ir rr sets = map ch_cp (filter (fun ch => negb (in_rep rr (ch_cp ch))) (rep_iter ir)).
Proof.
  intros ir rr sets Hi. unfold additional_codepoints. f_equal. apply filter_ext_in. intros ch Hc.
  assert (Hn : ch_cp ch <> []).
  { intros E. destruct (IterProofs.iter_general ir Hi) as (_ & _ & H3 & _). apply H3, (in_all_chars_lk _ _ Hi) in Hc. rewrite E in Hc. discriminate Hc. }
  assert (E : existsb (tuple_eqb (ch_cp ch)) (zip_sets (List.length (hd [] sets)) sets) = false).
  { generalize (zip_sets (List.length (hd [] sets)) sets). intros l. induction l as [|t l IH]; [reflexivity|]. cbn [existsb]. rewrite IH. unfold tuple_eqb. destruct (ch_cp ch); [contradiction | reflexivity]. }
  rewrite E. reflexivity.
Qed.

(** A table compared with itself: a rule on a range is not matched. *)
Lemma range_rule_self : exists r l, lgr_reachable r /\ In l (wle_report (lg_rep r) (lg_rep r) [("w", "text")] [("w", "text")]) /\ fst (wl_result l) = RManual.
Proof.
  exists (lgr_of [LAddRange 10 12 None [] [] (Some "w") None None false false]). eexists. split; [apply lgr_of_reachable|]. split; [vm_compute; left; reflexivity | reflexivity].
Qed.
(** The code point a missing rule applies to is in the table, inside a range. *)
Lemma range_hides : exists ir rr l c ch, lgr_reachable ir /\ lgr_reachable rr /\ In l (wle_report (lg_rep ir) (lg_rep rr) [] [("w", "text")]) /\
  fst (wl_result l) = RSubset /\ lookup (lg_rep rr) c = Some ch /\ ref_rule ch "w" /\ lookup (lg_rep ir) c <> None.
Proof.
  exists (lgr_of [LAddRange 10 12 None [] [] None None None false false]), (lgr_of [lcpc [11] (Some "w") None]). eexists. exists [11]. eexists.
  split; [apply lgr_of_reachable|]. split; [apply lgr_of_reachable|]. split; [vm_compute; left; reflexivity|]. split; [reflexivity|]. split; [vm_compute; reflexivity|].
  split; [split; [discriminate | left; reflexivity] | vm_compute; discriminate].
Qed.
(** A label that ends with a sequence of the table. *)
Lemma sequence_stops : exists g label, lgr_reachable g /\ made_of (lg_rep g) label /\ check_label_in (lg_rep g) label = Raise IndexError.
Proof.
  exists (lgr_of [lcp [1]; lcp [1; 2]; lcp [2]]), [1; 2]. split; [apply lgr_of_reachable|]. split; [|vm_compute; reflexivity].
  set (r := lg_rep (lgr_of [lcp [1]; lcp [1; 2]; lcp [2]])).
  assert (A : exists a, lookup r [1] = Some a) by (vm_compute; eexists; reflexivity). assert (B : exists b, lookup r [2] = Some b) by (vm_compute; eexists; reflexivity).
  destruct A as (a & A). destruct B as (b & B). pose proof A as A'. pose proof B as B'. rewrite lookup_lk in A', B'. apply lk_cp in A'. apply lk_cp in B'.
  exists [a; b]. split; [|cbn [map concat]; rewrite A', B'; reflexivity]. intros ch [<- | [<- | []]]; unfold entry; [rewrite A'; exact A | rewrite B'; exact B].
Qed.
