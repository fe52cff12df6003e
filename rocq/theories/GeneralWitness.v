(** Examples for the general rules and the reports without reference. *)
From Verif Require Import Base BaseFacts CharModel RepSpec RepProofs LabelSpec LgrModel LgrSpec LgrReach ValidateFinal UtilsModel ReviewModel ReviewSpec
  LangModel LangSpec LangWitness GeneralModel GeneralSpec GeneralProofs.
Open Scope string_scope.
Open Scope list_scope.

(** A small database. *)
Definition u_digit (c : N) : bool := match zero_of c with Some _ => true | None => false end.
Definition u_mark (c : N) : bool := begins_markb [c].
Definition u_rtl (c : N) : bool := N.leb 0x590 c && N.leb c 0x7FF.
Definition u_script_rtl (s : cps) : bool := memb cps_eqb s [txt "Arab"; txt "Hebr"].
Definition u_prop (c : N) : cps := if N.ltb c 200 then txt "PVALID" else txt "CONTEXTO".
Definition rep_of (l : list cps) : repertoire := lg_rep (lgr_of (map lcp l)).
Lemma rep_of_reachable : forall l, reachable (rep_of l).
Proof. intros l. apply lgr_reachable_rep, lgr_of_reachable. Qed.
Definition general_of (test : cps -> res bool) (r : repertoire) (languages : list cps) (reference : option (list cps)) : res general :=
  table_general u_digit u_mark u_rtl u_script_rtl test lib r languages reference.
Definition anything (l : cps) : res bool := Ok true.
Definition nothing_at_all (l : cps) : res bool := Ok false.

(** A Latin table with hyphens. *)
Definition latin : repertoire := rep_of [[45%N]; [109%N]; [50%N]].
Lemma w_latin : general_of anything latin [txt "en"] None = Ok (mkGeneral (false, None) (true, Some false) (false, None) (false, None) (false, None)) /\
  general_of nothing_at_all latin [] (Some [txt "en"]) = Ok (mkGeneral (false, None) (true, Some true) (false, None) (false, None) (false, None)) /\
  general_of nothing_at_all latin [] None = Ok (mkGeneral (false, None) (true, None) (false, None) (false, None) (false, None)).
Proof. repeat split; vm_compute; reflexivity. Qed.
Definition no_seqb (r : repertoire) : bool := forallb (fun ch => negb (is_seq ch)) (all_chars r).
Lemma no_seqb_sound : forall r, reachable r -> no_seqb r = true -> forall c ch, lookup r c = Some ch -> is_seq ch = false.
Proof.
  intros r Hr H c ch K. unfold no_seqb in H. rewrite forallb_forall in H. apply negb_true_iff, H. apply in_all_chars_lk; [apply reachable_wf, Hr|].
  rewrite lookup_lk in K. rewrite (lk_cp _ _ _ K). exact K.
Qed.
Lemma latin_no_seq : forall c ch, lookup latin c = Some ch -> is_seq ch = false.
Proof. apply no_seqb_sound; [apply rep_of_reachable | vm_compute; reflexivity]. Qed.

(** Eleven digits of two sets. *)
Definition eleven : repertoire := rep_of (map (fun c => [c]) ([1632; 1578] ++ nrange 48 57)%N).
Lemma w_eleven : over_ten eleven u_digit.
Proof. apply many_digits_iff; [apply rep_of_reachable | vm_compute; reflexivity]. Qed.
Lemma w_core : repertoire_core_report u_prop (rep_of [[45%N]; [109%N; 300%N]; [301%N]]) =
  ([([45%N], txt "PVALID"); ([109%N; 300%N], txt "PVALID CONTEXTO"); ([301%N], txt "CONTEXTO")], 1%nat, 2%nat).
Proof. vm_compute. reflexivity. Qed.
Lemma u_prop_words : forall x, ~ In 32%N (u_prop x).
Proof. intros x. unfold u_prop. destruct (N.ltb x 200); vm_compute; intuition discriminate. Qed.

(** A set of digits is not taken for several. *)
Theorem one_set : forall r d z, (forall c, has_single r c -> d c = true -> (z <= c < z + 10)%N) -> ~ over_ten r d.
Proof.
  intros r d z H (l & Hn & Hl & K).
  assert (I : incl l (nrange z (z + 9))).
  { intros c Hc. destruct (K c Hc) as [K1 K2]. apply nrange_In. pose proof (H c K1 K2). lia. }
  pose proof (NoDup_incl_length Hn I) as L. rewrite nrange_length in L. lia.
Qed.

(** Two sets of five digits are not seen. *)
Definition ten : repertoire := rep_of (map (fun c => [c]) (nrange 48 52 ++ nrange 1632 1636)%N).
Lemma two_sets_unseen : exists r, reachable r /\ (exists z z' c c', z <> z' /\ digit_of z c /\ digit_of z' c' /\ has_single r c /\ has_single r c') /\
  ~ over_ten r u_digit.
Proof.
  exists ten. split; [apply rep_of_reachable|]. split.
  - exists 48%N, 1632%N, 50%N, 1633%N. split; [discriminate|]. split; [apply zero_of_digit; vm_compute; reflexivity|]. split; [apply zero_of_digit; vm_compute; reflexivity|].
    split; unfold has_single; eexists; vm_compute; reflexivity.
  - intros H. apply (many_digits_iff u_digit ten (rep_of_reachable _)) in H. vm_compute in H. discriminate H.
Qed.

(** Cutting a label in single code points. *)
Lemma spelled_singles : forall r l, (forall c, In c l -> has_single r c) -> made_of r l.
Proof.
  intros r. induction l as [|c l IH]; intros H; [exists []; split; [intros ch [] | reflexivity]|].
  destruct (IH (fun x Hx => H x (or_intror Hx))) as (cs & K1 & K2). destruct (H c (or_introl eq_refl)) as (ch & Hc).
  assert (E : ch_cp ch = [c]) by (rewrite lookup_lk in Hc; exact (lk_cp _ _ _ Hc)).
  exists (ch :: cs). split; [|cbn [map concat]; rewrite E, K2; reflexivity].
  intros x [<-|Hx]; [unfold entry; rewrite E; exact Hc | apply K1, Hx].
Qed.

(** An Arabic table with European digits only, which refuses every label: the rule
    on initial digits is not found, since other digits are tried too. *)
Definition arabic : repertoire := rep_of [[1578%N]; [50%N]].
Lemma arabic_unseen : exists r l g, reachable r /\ made_of r l /\ begins_digit l /\ In l (get_labels [txt "Arab"] begin_digit_labels) /\
  general_rules u_digit u_mark u_rtl u_script_rtl nothing_at_all r [txt "Arab"] [txt "Arab"] = Ok g /\ ge_rtl g = (true, None).
Proof.
  exists arabic, [50%N; 1578%N; 1578%N]. eexists. split; [apply rep_of_reachable|]. split.
  - apply spelled_singles. intros c H. cbn [In] in H. unfold has_single. repeat (destruct H as [<-|H]; [eexists; vm_compute; reflexivity|]). destruct H.
  - split; [apply begins_digitb_sound; vm_compute; reflexivity|]. split; [vm_compute; tauto|]. split; vm_compute; reflexivity.
Qed.
(** A Georgian table that accepts every label: Kannada labels are tried first. *)
Definition georgian : repertoire := rep_of [[45%N]; [4305%N]].
Lemma georgian_unseen : exists r l g, reachable r /\ made_of r l /\ bad_hyphen l /\ In l (get_labels (table_tags lib [txt "ka"]) consecutive_hyphen_labels) /\
  general_of anything r [txt "ka"] None = Ok g /\ ge_hyphen g = (true, None).
Proof.
  exists georgian, [45%N; 4305%N; 4305%N]. eexists. split; [apply rep_of_reachable|]. split.
  - apply spelled_singles. intros c H. cbn [In] in H. unfold has_single. repeat (destruct H as [<-|H]; [eexists; vm_compute; reflexivity|]). destruct H.
  - split; [apply bad_hyphenb_sound; vm_compute; reflexivity|]. split; [vm_compute; tauto|]. split; vm_compute; reflexivity.
Qed.
(** A Korean table tagged by its script: no label is tried. *)
Definition korean : repertoire := rep_of [[45%N]; [44032%N]].
Lemma korean_untried : exists r l g, reachable r /\ made_of r l /\ bad_hyphen l /\ In l (get_labels [txt "ko"] consecutive_hyphen_labels) /\
  get_scripts lib [txt "und-Kore"] true = [txt "Hani"; txt "Hang"] /\
  get_labels (table_tags lib [txt "und-Kore"]) consecutive_hyphen_labels = [] /\
  general_of anything r [txt "und-Kore"] None = Ok g /\ ge_hyphen g = (true, None).
Proof.
  exists korean, [45%N; 44032%N; 44032%N]. eexists. split; [apply rep_of_reachable|]. split.
  - apply spelled_singles. intros c H. cbn [In] in H. unfold has_single. repeat (destruct H as [<-|H]; [eexists; vm_compute; reflexivity|]). destruct H.
  - split; [apply bad_hyphenb_sound; vm_compute; reflexivity|]. split; [vm_compute; tauto|]. repeat split; vm_compute; reflexivity.
Qed.
Lemma w_additional : additional_cp (rep_of [[45%N]; [109%N]; [50%N]]) (rep_of [[109%N]]) = [[45%N]; [50%N]].
Proof. vm_compute. reflexivity. Qed.
