(** C68: the general rules and the reports without reference of the review of an IDN table. *)
From Coq Require Import Permutation Sorted.
From Verif Require Import Base CharModel RepSpec LabelSpec LgrModel UtilsModel ReviewModel ReviewSpec LangModel LangWitness
  GeneralModel GeneralSpec GeneralProofs GeneralWitness.
Open Scope string_scope.
Open Scope list_scope.

(** C68: when each general rule applies, and what is said of its existence. *)
Theorem C68_report : forall d m rtl srtl test r scripts tags g, reachable r ->
  general_rules d m rtl srtl test r scripts tags = Ok g ->
  let part p (P : Prop) labels := (fst p = true <-> P) /\ (P -> said r test labels (snd p)) /\ (~ P -> snd p = None) in
  part (ge_mark g) (exists c, has_single r c /\ m c = true) (get_labels tags combining_mark_labels) /\
  part (ge_hyphen g) (has_single r 45) (get_labels tags consecutive_hyphen_labels) /\
  part (ge_rtl g) (((exists s, In s scripts /\ srtl s = true) \/ (tags = [] /\ exists c, has_single r c /\ rtl c = true)) /\
                   exists c, has_single r c /\ d c = true) (get_labels tags begin_digit_labels) /\
  part (ge_digits g) (over_ten r d) (get_labels tags multiple_digit_sets_labels) /\
  part (ge_contextj g) (has_single r 12539) (get_labels tags japanese_contextj_labels).
Proof. exact general_report. Qed.
Print Assumptions C68_report.
Example C68_report_ex :
  general_of anything latin [txt "en"] None = Ok (mkGeneral (false, None) (true, Some false) (false, None) (false, None) (false, None)) /\
  general_of nothing_at_all latin [] (Some [txt "en"]) = Ok (mkGeneral (false, None) (true, Some true) (false, None) (false, None) (false, None)) /\
  general_of nothing_at_all latin [] None = Ok (mkGeneral (false, None) (true, None) (false, None) (false, None) (false, None)).
Proof. exact w_latin. Qed.

(** C68: only one thing can be said. *)
Theorem C68_one_answer : forall r test labels x y, said r test labels x -> said r test labels y -> x = y.
Proof. exact said_unique. Qed.
Print Assumptions C68_one_answer.
Example C68_one_answer_ex : said latin anything [[45%N]] (Some false).
Proof.
  exists [], [45%N], []. split; [reflexivity|]. split; [constructor|]. split; [|reflexivity].
  apply spelled_singles. intros c [<-|[]]. eexists. vm_compute. reflexivity.
Qed.

(** C68: a table without sequences always has its report. *)
Theorem C68_always : forall d m rtl srtl test r scripts tags, reachable r -> (forall c ch, lookup r c = Some ch -> is_seq ch = false) ->
  (forall l, exists b, test l = Ok b) -> exists g, general_rules d m rtl srtl test r scripts tags = Ok g.
Proof. exact general_total. Qed.
Print Assumptions C68_always.
Example C68_always_ex : reachable latin /\ (forall c ch, lookup latin c = Some ch -> is_seq ch = false) /\ exists ch, lookup latin [45%N] = Some ch.
Proof. split; [apply rep_of_reachable|]. split; [exact latin_no_seq|]. eexists. vm_compute. reflexivity. Qed.

(** C68: the languages and scripts of a table, or else of its reference, choose the labels. *)
Theorem C68_tags : forall tags languages, tags_from tags languages (table_tags tags languages).
Proof. exact tags_spec. Qed.
Print Assumptions C68_tags.
Example C68_tags_ex : table_tags lib [txt "ja"; txt "en"; txt "x-one"] = map txt ["en"; "ja"; "Hani"; "Hira"; "Kana"; "Latn"].
Proof. vm_compute. reflexivity. Qed.
Theorem C68_reference_tags : forall d m rtl srtl test tags r languages reference,
  table_general d m rtl srtl test tags r languages reference =
  general_rules d m rtl srtl test r (get_scripts tags languages true)
    (match table_tags tags languages, reference with [], Some l => table_tags tags l | own, _ => own end).
Proof. exact table_uses. Qed.
Print Assumptions C68_reference_tags.
Example C68_reference_tags_ex : table_tags lib [txt "x-one"] = [].
Proof. vm_compute. reflexivity. Qed.

(** C68: the labels tried are what the rules are about. *)
Theorem C68_mark_labels : forall tags l, In l (get_labels tags combining_mark_labels) -> begins_mark l.
Proof. exact mark_labels. Qed.
Print Assumptions C68_mark_labels.
Theorem C68_hyphen_labels : forall tags l, In l (get_labels tags consecutive_hyphen_labels) -> bad_hyphen l.
Proof. exact hyphen_labels. Qed.
Print Assumptions C68_hyphen_labels.
Theorem C68_digit_labels : forall tags l, In l (get_labels tags begin_digit_labels) -> begins_digit l.
Proof. exact digit_labels. Qed.
Print Assumptions C68_digit_labels.
Theorem C68_mixed_labels : forall tags l, In l (get_labels tags multiple_digit_sets_labels) -> mixes_digits l.
Proof. exact mixed_labels. Qed.
Print Assumptions C68_mixed_labels.
Theorem C68_dot_labels : forall tags l, In l (get_labels tags japanese_contextj_labels) -> lone_dot l.
Proof. exact dot_labels. Qed.
Print Assumptions C68_dot_labels.
(** C68: they come tag by tag; every script with labels has a label with a hyphen
    first, last, and third and fourth; languages of a family share their labels. *)
Theorem C68_labels_order : forall a b coll, get_labels (a ++ b) coll = get_labels a coll ++ get_labels b coll.
Proof. exact labels_app. Qed.
Print Assumptions C68_labels_order.
Theorem C68_hyphen_each : forall t, In t own_labels ->
  (exists s, s <> [] /\ In (45%N :: s) (get_labels [txt t] consecutive_hyphen_labels)) /\
  (exists s, s <> [] /\ In (s ++ [45%N]) (get_labels [txt t] consecutive_hyphen_labels)) /\
  (exists a b s, s <> [] /\ In (a :: b :: 45%N :: 45%N :: s) (get_labels [txt t] consecutive_hyphen_labels)).
Proof. exact hyphen_each. Qed.
Print Assumptions C68_hyphen_each.
Theorem C68_alike : forall k ts t coll, In (k, ts) alike -> In t ts -> get_labels [txt t] coll = get_labels [txt k] coll.
Proof. exact alike_labels. Qed.
Print Assumptions C68_alike.
(** Achinese is tried with Chinese labels, Georgian with Kannada ones. *)
Theorem C68_strangers_refuted : forall k t coll, In (k, t) strangers -> get_labels [txt t] coll = get_labels [txt k] coll.
Proof. exact stranger_labels. Qed.
Print Assumptions C68_strangers_refuted.
Example C68_labels_ex : get_labels [txt "Latn"; txt "iw"; txt "none"] begin_digit_labels = [[51; 1489; 1489]%N] /\
  get_labels [txt "Kana"] japanese_contextj_labels = [[98; 12539; 97]%N] /\ get_labels [txt "Thai"] combining_mark_labels = [[3639; 3585]%N] /\
  get_labels [txt "Thai"] multiple_digit_sets_labels = [[3585; 3667; 51]%N] /\ length (get_labels [txt "Latn"; txt "iw"] consecutive_hyphen_labels) = 6%nat.
Proof. repeat split; vm_compute; reflexivity. Qed.

(** C68: the code points without rule that the reference does not have, sorted. *)
Theorem C68_additional : forall r ref, reachable r ->
  NoDup (additional_cp r ref) /\ StronglySorted (fun a b => cps_leb a b = true) (additional_cp r ref) /\
  forall c, In c (additional_cp r ref) <->
    (exists ch, lookup r c = Some ch /\ truthy (ch_when ch) = false /\ truthy (ch_not_when ch) = false) /\ lookup ref c = None.
Proof. exact additional_spec. Qed.
Print Assumptions C68_additional.
Example C68_additional_ex : additional_cp (rep_of [[45%N]; [109%N]; [50%N]]) (rep_of [[109%N]]) = [[45%N]; [50%N]].
Proof. exact w_additional. Qed.

(** C68: the report of the repertoire alone lists it, and counts the entries whose
    code points are all valid. *)
Theorem C68_repertoire : forall prop r report valid invalid, reachable r -> (forall x, ~ In 32%N (prop x)) ->
  repertoire_core_report prop r = (report, valid, invalid) ->
  NoDup (map fst report) /\ (forall c, In c (map fst report) <-> exists ch, lookup r c = Some ch) /\
  (forall c text, In (c, text) report -> text = join [32%N] (map prop c)) /\
  (valid + invalid = length report)%nat /\
  exists l, NoDup l /\ length l = valid /\ forall c, In c l <-> all_valid_entry r prop c.
Proof. exact core_report. Qed.
Print Assumptions C68_repertoire.
Example C68_repertoire_ex : (forall x, ~ In 32%N (u_prop x)) /\ repertoire_core_report u_prop (rep_of [[45%N]; [109%N; 300%N]; [301%N]]) =
  ([([45%N], txt "PVALID"); ([109%N; 300%N], txt "PVALID CONTEXTO"); ([301%N], txt "CONTEXTO")], 1%nat, 2%nat).
Proof. split; [exact u_prop_words | exact w_core]. Qed.

(** C68: several sets of digits are seen from the eleventh digit on; one set of ten never is. *)
Theorem C68_digit_sets : forall d r, reachable r -> (variant_sets_core_report d r = true <-> over_ten r d).
Proof. exact variant_core. Qed.
Print Assumptions C68_digit_sets.
Example C68_digit_sets_ex : over_ten eleven u_digit.
Proof. exact w_eleven. Qed.
Theorem C68_one_set : forall r d z, (forall c, has_single r c -> d c = true -> (z <= c < z + 10)%N) -> ~ over_ten r d.
Proof. exact one_set. Qed.
Print Assumptions C68_one_set.

(** Two sets of digits in a table are not seen when they have ten digits or fewer in all. *)
Theorem C68_two_sets_refuted : exists r, reachable r /\
  (exists z z' c c', z <> z' /\ digit_of z c /\ digit_of z' c' /\ has_single r c /\ has_single r c') /\ ~ over_ten r u_digit.
Proof. exact two_sets_unseen. Qed.
Print Assumptions C68_two_sets_refuted.
(** An Arabic table refusing every label is not said to have the rule on initial
    digits, although a label to try can be spelled. *)
Theorem C68_arabic_refuted : exists r l g, reachable r /\ made_of r l /\ begins_digit l /\ In l (get_labels [txt "Arab"] begin_digit_labels) /\
  general_rules u_digit u_mark u_rtl u_script_rtl nothing_at_all r [txt "Arab"] [txt "Arab"] = Ok g /\ ge_rtl g = (true, None).
Proof. exact arabic_unseen. Qed.
Print Assumptions C68_arabic_refuted.
(** A Georgian table accepting every label is not said to lack the rule on hyphens. *)
Theorem C68_georgian_refuted : exists r l g, reachable r /\ made_of r l /\ bad_hyphen l /\
  In l (get_labels (table_tags lib [txt "ka"]) consecutive_hyphen_labels) /\
  general_of anything r [txt "ka"] None = Ok g /\ ge_hyphen g = (true, None).
Proof. exact georgian_unseen. Qed.
Print Assumptions C68_georgian_refuted.
(** No label is tried on a table tagged with the Korean script. *)
Theorem C68_korean_refuted : exists r l g, reachable r /\ made_of r l /\ bad_hyphen l /\ In l (get_labels [txt "ko"] consecutive_hyphen_labels) /\
  get_scripts lib [txt "und-Kore"] true = [txt "Hani"; txt "Hang"] /\
  get_labels (table_tags lib [txt "und-Kore"]) consecutive_hyphen_labels = [] /\
  general_of anything r [txt "und-Kore"] None = Ok g /\ ge_hyphen g = (true, None).
Proof. exact korean_untried. Qed.
Print Assumptions C68_korean_refuted.
