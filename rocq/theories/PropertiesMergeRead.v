(** C100: what a merged set is once written and read back. *)
From Coq Require Import Permutation.
From Verif Require Import Base CharModel RepSpec RefModel ActionModel ActionSpec LabelModel LabelSpec LgrModel LgrSpec LgrReach ValidateSpec MetaModel MetaSpec SerialModel SerialSpec SerialWitness CompareLabelSpec.
From Verif Require Import MergeMetaModel MergeMetaSpec MergeMetaWitness MergeModel MergeSpec MergeWitness MergeSucceedSpec MergeSucceedWitness MergeAgreeWitness CombineSpec MergeLabelSpec MergeReadModel MergeReadSpec MergeReadFinal MergeReadLabel MergeReadWitness.
Open Scope string_scope.
Open Scope N_scope.
Open Scope list_scope.

(** What is returned is what was merged: its metadata, its references and its
    entries, without the citations of references it does not define. *)
Theorem C100_reads_back : forall on ov, any_order on -> any_order ov -> forall lang_check dig, dig 46 = false -> (forall c, 48 <= c <= 57 -> dig c = true) ->
  forall today l st, full_date today -> (forall x, In x l -> storable lang_check dig x) -> merge_lgr_set on ov (map snd l) = Ok st ->
  exists m g, merge_set lang_check dig on ov today l = Ok (m, g) /\
    same_metadata (merge_set_metadata today (map fst l)) m /\ read_as (mg_lgr st) g /\ lgr_reachable g.
Proof. exact merge_set_reads. Qed.
Print Assumptions C100_reads_back.
Example C100_reads_back_ex : full_date MergeMetaWitness.today /\ (forall x, In x (with_meta digits) -> storable every_lang MetaSpec.ascii_digit x) /\
  MetaSpec.ascii_digit 46 = false /\ forall c, 48 <= c <= 57 -> MetaSpec.ascii_digit c = true.
Proof. exact (conj today_full (conj digits_storable (conj eq_refl digit_digits))). Qed.
Example C100_reads_back_ex2 : shown_set (merge_here (with_meta digits)) [[1]; [9]; [10]; [21]] =
  Some [Some (None, ["1"; "0"], [], None, [([2], None)]); Some (None, ["0"], [], Some "B-digit", [([10], Some "B-initial"); ([10], None)]);
        Some (None, ["2"], [], None, [([9], None)]); Some (None, ["2"; "0"], [], None, [])].
Proof. exact digits_read. Qed.

(** Its code points are those of the LGRs of the set. *)
Theorem C100_code_points : forall on ov, any_order on -> any_order ov -> forall lang_check dig, dig 46 = false -> (forall c, 48 <= c <= 57 -> dig c = true) ->
  forall today l m g, full_date today -> (forall x, In x l -> storable lang_check dig x) -> merge_set lang_check dig on ov today l = Ok (m, g) ->
  forall c, lookup (lg_rep g) c <> None <-> exists x, In x l /\ has_cp (snd x) c.
Proof. exact merge_set_code_points. Qed.
Print Assumptions C100_code_points.

(** All variants and contexts are as merged when the scripts differ. *)
Theorem C100_rebuilt : forall on ov, any_order on -> any_order ov -> forall lang_check dig, dig 46 = false -> (forall c, 48 <= c <= 57 -> dig c = true) ->
  forall today l st m g, full_date today -> (forall x, In x l -> storable lang_check dig x) -> NoDup (map get_script (map snd l)) ->
  merge_lgr_set on ov (map snd l) = Ok st -> merge_set lang_check dig on ov today l = Ok (m, g) -> rebuilt (lg_rep (mg_lgr st)) (lg_rep g).
Proof. exact merge_set_rebuilt. Qed.
Print Assumptions C100_rebuilt.

(** So the result says of labels what C99 tells: one that fits the LGRs of the
    set gets no complaint and their own actions decide on it.  Missing: code
    points that are their own variants. *)
Theorem C100_verdict_partial : forall on ov, any_order on -> any_order ov -> forall lang_check dig, dig 46 = false -> (forall c, 48 <= c <= 57 -> dig c = true) ->
  forall rms rm today l st m g, full_date today -> (forall x, In x l -> storable lang_check dig x) -> NoDup (map get_script (map snd l)) ->
  merge_lgr_set on ov (map snd l) = Ok st -> merge_set lang_check dig on ov today l = Ok (m, g) ->
  rules_follow rms rm (map snd l) -> no_selves (lg_rep (mg_lgr st)) ->
  exists l', Permutation (map snd l) l' /\ in_script_order l' /\
    forall label, label <> [] -> (forall i x, nth_error label i = Some x -> fits rms (map snd l) label i x) ->
    exists e, test_label_eligible rm (lg_rep g) (mg_actions st) label false = Ok e /\ el_invalid e = [] /\
      ((exists mb a, first_triggered rms l' label [] false mb a /\ el_disp e = Some (a_disp a) /\ (el_ok e = true <-> a_disp a <> "invalid")) \/
       ((forall mb a, In mb (map snd l) -> ~ triggered rms mb label [] false a) /\ el_disp e = Some "valid" /\ el_ok e = true)).
Proof. exact merge_set_verdict. Qed.
Print Assumptions C100_verdict_partial.

(** A set merges if at most one LGR says something on each shared code point.
    C100_agreeing_exact has sets in which several do; missing are the others
    left out there, as in C38_succeeds_partial. *)
Theorem C100_succeeds_partial : forall on ov, any_order on -> any_order ov -> forall lang_check dig, dig 46 = false -> (forall c, 48 <= c <= 57 -> dig c = true) ->
  forall today l, full_date today -> (forall x, In x l -> storable lang_check dig x) ->
  (forall m, In m (map snd l) -> proper (mb_lgr m) /\ texts_once m /\ contexts_named m) -> NoDup (map get_script (map snd l)) -> one_speaks (map snd l) ->
  exists m g, merge_set lang_check dig on ov today l = Ok (m, g).
Proof. exact merge_set_succeeds. Qed.
Print Assumptions C100_succeeds_partial.
Example C100_succeeds_ex : (forall m, In m (map snd (with_meta digits)) -> proper (mb_lgr m) /\ texts_once m /\ contexts_named m) /\
  NoDup (map get_script (map snd (with_meta digits))) /\ one_speaks (map snd (with_meta digits)).
Proof. exact digits_succeed. Qed.

(** When the variants of shared code points agree, a set merges exactly if the
    LGRs that ask for a rule on a code point ask for the same one. *)
Theorem C100_agreeing_exact : forall on ov, any_order on -> any_order ov -> forall lang_check dig, dig 46 = false -> (forall c, 48 <= c <= 57 -> dig c = true) ->
  forall today l, full_date today -> (forall x, In x l -> storable lang_check dig x) ->
  (forall m, In m (map snd l) -> proper (mb_lgr m) /\ texts_once m /\ contexts_named m) -> NoDup (map get_script (map snd l)) ->
  unambiguous when_of (map snd l) -> unambiguous not_when_of (map snd l) -> variants_agree (map snd l) ->
  ((exists m g, merge_set lang_check dig on ov today l = Ok (m, g)) <-> same_rules when_of (map snd l) /\ same_rules not_when_of (map snd l)).
Proof. exact merge_set_agrees. Qed.
Print Assumptions C100_agreeing_exact.
Example C100_agreeing_ex : map snd (with_meta agreeing) = agreeing /\ (forall x, In x (with_meta agreeing) -> storable every_lang MetaSpec.ascii_digit x).
Proof. exact agreeing_storable. Qed.

(** Writing and reading never fails: an exception is one of the merge. *)
Theorem C100_fails : forall on ov, any_order on -> any_order ov -> forall lang_check dig, dig 46 = false -> (forall c, 48 <= c <= 57 -> dig c = true) ->
  forall today l e, (forall x, In x l -> storable lang_check dig x) -> full_date today ->
  (merge_set lang_check dig on ov today l = Raise e <-> merge_lgr_set on ov (map snd l) = Raise e).
Proof. exact merge_set_fails. Qed.
Print Assumptions C100_fails.
Example C100_fails_ex : exists l e, (forall x, In x l -> storable every_lang MetaSpec.ascii_digit x) /\ merge_here l = Raise e.
Proof. exact nameless_fails. Qed.

(** A shared code point loses a citation, though the reference is there. *)
Theorem C100_citation_lost_refuted : exists l today m g x c t ch,
  (forall y, In y l -> storable every_lang MetaSpec.ascii_digit y /\ proper (mb_lgr (snd y))) /\ NoDup (map get_script (map snd l)) /\ one_speaks (map snd l) /\
  merge_set every_lang MetaSpec.ascii_digit given given today l = Ok (m, g) /\
  In x l /\ cites (mb_lgr (snd x)) c t /\ lookup (lg_rep g) c = Some ch /\ ch_refs ch = [] /\ exists id, text_in g id = Some t.
Proof. exact citation_lost. Qed.
Print Assumptions C100_citation_lost_refuted.

(** A shared code point gets a [when] and a [not-when] rule: what the merge
    returns, once written, is refused by a strict reader. *)
Theorem C100_strictly_readable_refuted : exists l today m g c ch e,
  (forall y, In y l -> storable every_lang MetaSpec.ascii_digit y /\ proper (mb_lgr (snd y))) /\ NoDup (map get_script (map snd l)) /\
  merge_set every_lang MetaSpec.ascii_digit given given today l = Ok (m, g) /\ lookup (lg_rep g) c = Some ch /\ ch_when ch <> None /\ ch_not_when ch <> None /\
  snd (parse_document every_lang MetaSpec.ascii_digit None false false (serialize_lgr m g)) = Raise e.
Proof. exact both_contexts. Qed.
Print Assumptions C100_strictly_readable_refuted.
