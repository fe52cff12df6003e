(** Sample LGRs for the theorems about comparisons. *)
From Verif Require Import Base BaseFacts CharModel RepSpec RepProofs UtilsModel RefModel ActionModel LgrModel LgrSpec LgrInv LgrFinal MetaModel ValidateFinal CompareModel CompareSpec CompareProofs CompareFinal CompareWitness DiffModel DiffSpec DiffProofs DiffSets.
From Coq Require Import Permutation.
Open Scope string_scope.
Open Scope list_scope.

Definition plain_order (A : Type) (l : list A) : list A := l.
Lemma plain_any : any_order plain_order.
Proof. intros A l. apply Permutation_refl. Qed.
Definition turned_order (A : Type) (l : list A) : list A := rev l.
Lemma turned_any : any_order turned_order.
Proof. intros A l. apply Permutation_sym, Permutation_rev. Qed.
Definition a_tidy : tidy (doc_lgr doc_a) := proj1 doc_a_ok.
Definition b_tidy : tidy (doc_lgr doc_b) := proj1 doc_b_ok.

(** The outcome of a comparison. *)
Definition report_of (x : doc * doc * res lgr_diff) : option lgr_diff := match x with (_, _, Ok r) => Some r | _ => None end.
Definition after (x : doc * doc * res lgr_diff) : doc * doc := let '(a, b, _) := x in (a, b).
Definition quiet_report (n : option nat) : lgr_diff := mkLd None SNothing SNothing [] n SNothing SNothing SNothing.

Definition full_meta (l : list cps) : metadata :=
  mkMeta (Some (mkVersion (txt "1") None)) None l [] None None (Some (txt "6.3.0")) (Some (mkDesc (txt "words") None)) [].
(** A code point with a context rule, references and actions. *)
Definition doc_c : doc := doc_of [LAddReference "book" None None; LAddCp [1] None ["0"] [] (Some "r") None None false false; lcp [2]; lvar [1] [2]; lvar [2] [1]]
  (full_meta [txt "fr"]) [(act "blocked" (Some "r"), "a1"); (act "valid" None, "a2")] [("r", "x")].
Definition doc_d : doc := doc_of [LAddReference "other" None None; LDelReference "0"; LAddReference "book" None (Some "7"); LAddCp [1] None [] [] None None None false false; lcp [2]; lvar [1] [2]; lvar [2] [1]]
  (full_meta [txt "fr"]) [(act "valid" (Some "r"), "a1"); (act "blocked" None, "a2")] [("r", "y")].
Lemma doc_c_tidy : tidy (doc_lgr doc_c).
Proof. apply ranges_tidy. vm_compute. reflexivity. Qed.
Lemma doc_d_tidy : tidy (doc_lgr doc_d).
Proof. apply ranges_tidy. vm_compute. reflexivity. Qed.
Definition doc_e : doc := doc_of [lcp [5]] (full_meta []) [] [].
Lemma doc_e_tidy : tidy (doc_lgr doc_e).
Proof. apply ranges_tidy. vm_compute. reflexivity. Qed.


Lemma blind_contexts : exists d1 d2 a b, tidy (doc_lgr d1) /\ tidy (doc_lgr d2) /\ in_both d1 d2 [1] a b /\ ch_when a <> ch_when b /\ ch_refs a <> ch_refs b /\
  report_of (diff_lgrs plain_order false d1 d2) = Some (quiet_report (Some 2%nat)).
Proof.
  exists doc_c, doc_d. eexists. eexists. split; [exact doc_c_tidy|]. split; [exact doc_d_tidy|].
  split; [split; vm_compute; reflexivity|]. split; [vm_compute; discriminate|]. split; [vm_compute; discriminate|vm_compute; reflexivity].
Qed.
Lemma blind_actions : exists d1 d2, tidy (doc_lgr d1) /\ tidy (doc_lgr d2) /\ doc_actions d1 <> doc_actions d2 /\ doc_rules d1 = doc_rules d2 /\ doc_rules_xml d1 <> doc_rules_xml d2 /\
  report_of (diff_lgrs plain_order false d1 d2) = Some (quiet_report (Some 2%nat)).
Proof.
  exists doc_c, doc_d. split; [exact doc_c_tidy|]. split; [exact doc_d_tidy|].
  split; [vm_compute; discriminate|]. split; [reflexivity|]. split; [vm_compute; discriminate|vm_compute; reflexivity].
Qed.
Lemma not_silent : exists d, tidy (doc_lgr d) /\ exists r m, report_of (diff_lgrs plain_order false d d) = Some r /\ ld_metadata r = Some m.
Proof. exists doc_a. split; [exact a_tidy|]. eexists. eexists. split; vm_compute; reflexivity. Qed.
Lemma splits_ranges : exists d1 d2 a a', tidy (doc_lgr d1) /\ tidy (doc_lgr d2) /\
  entry_of d1 [20] = Some a /\ entry_of (fst (after (diff_lgrs plain_order false d1 d2))) [20] = Some a' /\ ch_kind a = KRange 20 23 /\ ch_kind a' = KChar.
Proof.
  exists doc_a, doc_b. eexists. eexists. split; [exact a_tidy|]. split; [exact b_tidy|].
  split; [vm_compute; reflexivity|]. split; [vm_compute; reflexivity|]. split; reflexivity.
Qed.
Lemma skipped : exists m s1 s2 d, (forall x, In x s1 \/ In x (d :: s1) \/ In x s2 -> tidy (doc_lgr x)) /\ ~ In d s1 /\
  diff_lgr_sets plain_order false m m (d :: s1) s2 = diff_lgr_sets plain_order false m m s1 s2.
Proof.
  exists doc_c, [doc_c], [doc_d], doc_e. split; [|split].
  - cbn [In]. pose proof doc_c_tidy. pose proof doc_d_tidy. pose proof doc_e_tidy.
    intros x [[K|[]]|[[K|[K|[]]]|[K|[]]]]; subst x; assumption.
  - cbn [In]. intros [K|[]]. apply (f_equal doc_rules) in K. discriminate.
  - vm_compute. reflexivity.
Qed.
Lemma sample_sets_tidy : forall d, In d [doc_a; doc_c; doc_e] \/ In d [doc_b; doc_d] -> tidy (doc_lgr d).
Proof. pose proof a_tidy. pose proof b_tidy. pose proof doc_c_tidy. pose proof doc_d_tidy. pose proof doc_e_tidy. cbn [In]. intros x [[K|[K|[K|[]]]]|[K|[K|[]]]]; subst x; assumption. Qed.
