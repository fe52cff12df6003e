(** C71: the metadata of a merged set. *)
From Coq Require Import Permutation.
From Verif Require Import Base CharModel RefModel LgrModel UtilsModel MetaModel MetaSpec CompareSpec SerialModel SerialSpec SerialWitness LabelFinal ValidateFinal.
From Verif Require Import MergeMetaModel MergeMetaSpec MergeMetaProofs MergeMetaOrder MergeMetaRead MergeMetaWitness.
Open Scope string_scope.
Open Scope list_scope.

(** The members are taken in the order of their scripts. *)
Theorem C71_order : forall today l, exists r, in_script_order l r /\ merge_set_metadata today l = merge_metadata today r.
Proof. exact set_order. Qed.
Print Assumptions C71_order.
Example C71_order_sample : merge_set_metadata today sample = merge_metadata today [m_fr; m_uk; m_und].
Proof. vm_compute. reflexivity. Qed.

(** The order in which the set is given does not count if no two members sort
    alike, and never for languages, scopes, period and Unicode version. *)
Theorem C71_order_irrelevant : forall today l l', Permutation l l' ->
  (forall a m1 b m2 c k, l = a ++ m1 :: b ++ m2 :: c -> sorts_as m1 k -> sorts_as m2 k -> False) ->
  merge_set_metadata today l = merge_set_metadata today l'.
Proof. exact order_irrelevant. Qed.
Print Assumptions C71_order_irrelevant.
Example C71_order_irrelevant_sample : forall a m1 b m2 c k, sample = a ++ m1 :: b ++ m2 :: c -> sorts_as m1 k -> sorts_as m2 k -> False.
Proof. exact sample_distinct. Qed.
Theorem C71_order_changes_little : forall today l l', Permutation l l' ->
  let m := merge_set_metadata today l in let m' := merge_set_metadata today l' in
  Permutation (md_languages m) (md_languages m') /\ Permutation (md_scopes m) (md_scopes m') /\ md_start m = md_start m' /\ md_end m = md_end m' /\
  md_unicode m = md_unicode m' /\ option_map desc_type (md_description m) = option_map desc_type (md_description m').
Proof. exact order_changes_little. Qed.
Print Assumptions C71_order_changes_little.
Theorem C71_order_refuted : exists l l', Permutation l l' /\ merge_set_metadata today l <> merge_set_metadata today l'.
Proof. exact order_counts. Qed.
Print Assumptions C71_order_refuted.

(** The version: the different values, and the different comments. *)
Theorem C71_version : forall today l, exists vs cs v c,
  md_version (merge_metadata today l) = Some (mkVersion v (Some c)) /\
  firsts (version_values l) vs /\ glued [124] vs v /\ firsts (version_comments l) cs /\ glued [124] cs c.
Proof. exact version_merged. Qed.
Print Assumptions C71_version.
Example C71_version_sample : md_version (merge_set_metadata today sample) = Some (mkVersion (txt "1|2") (Some (txt "fr|und-Arab"))).
Proof. vm_compute. reflexivity. Qed.
Theorem C71_version_refuted : exists l l', version_values l <> version_values l' /\
  md_version (merge_set_metadata today l) = md_version (merge_set_metadata today l').
Proof. exact versions_confused. Qed.
Print Assumptions C71_version_refuted.

(** Languages and scopes: each once, as first met; the result is thereby
    determined. *)
Theorem C71_languages : forall today l, firsts (flat_map md_languages l) (md_languages (merge_metadata today l)).
Proof. exact languages_merged. Qed.
Print Assumptions C71_languages.
Theorem C71_scopes : forall today l, firsts (flat_map md_scopes l) (md_scopes (merge_metadata today l)).
Proof. exact scopes_merged. Qed.
Print Assumptions C71_scopes.
Theorem C71_firsts_unique : forall A (eq_dec : forall a b : A, {a = b} + {a <> b}) l (r r' : list A), firsts l r -> firsts l r' -> r = r'.
Proof. exact @firsts_unique. Qed.
Print Assumptions C71_firsts_unique.
Example C71_languages_sample : md_languages (merge_set_metadata today sample) = [txt "fr"; txt "mul"; txt "uk"; txt "und-Arab"] /\
  length (md_scopes (merge_set_metadata today sample)) = 1%nat.
Proof. vm_compute. split; reflexivity. Qed.

(** The period: from the latest start to the earliest end given. *)
Theorem C71_start : forall today l, greatest (map md_start l) (md_start (merge_metadata today l)).
Proof. exact start_merged. Qed.
Print Assumptions C71_start.
Theorem C71_end : forall today l, least (map md_end l) (md_end (merge_metadata today l)).
Proof. exact end_merged. Qed.
Print Assumptions C71_end.
Example C71_period_sample : md_start (merge_set_metadata today sample) = Some (txt "2021-01-01") /\
  md_end (merge_set_metadata today sample) = Some (txt "2029-01-01").
Proof. vm_compute. split; reflexivity. Qed.
Theorem C71_period_refuted : exists l s e, (forall m, In m l -> exists a b, md_start m = Some a /\ md_end m = Some b /\ not_after a b) /\
  md_start (merge_set_metadata today l) = Some s /\ md_end (merge_set_metadata today l) = Some e /\ ~ not_after s e.
Proof. exact no_period. Qed.
Print Assumptions C71_period_refuted.

(** The Unicode version: the greatest as a text, never less than 6.3.0. *)
Theorem C71_unicode : forall today l, greatest (Some (txt "6.3.0") :: map md_unicode l) (md_unicode (merge_metadata today l)).
Proof. exact unicode_merged. Qed.
Print Assumptions C71_unicode.
Example C71_unicode_sample : md_unicode (merge_set_metadata today sample) = Some (txt "7.0.0").
Proof. vm_compute. reflexivity. Qed.
Theorem C71_unicode_refuted : exists l, (forall m, In m l -> md_unicode m = Some (txt "11.0.0")) /\ l <> [] /\
  md_unicode (merge_set_metadata today l) = Some (txt "6.3.0").
Proof. exact older_unicode. Qed.
Print Assumptions C71_unicode_refuted.

(** The date is the day of the merge; no check results are taken over. *)
Theorem C71_rest : forall today l, md_date (merge_metadata today l) = Some today /\ md_checks (merge_metadata today l) = [].
Proof. exact rest_merged. Qed.
Print Assumptions C71_rest.

(** The description: all of them, one after the other if all are HTML, else under
    a line saying whose it is. *)
Theorem C71_description : forall today l, exists d, md_description (merge_metadata today l) = Some d /\
  (all_html l -> desc_type d = Some (txt "text/html") /\ glued [] (map (fun p => desc_value (snd p)) (descriptions l)) (desc_value d)) /\
  (~ all_html l -> desc_type d = Some (txt "text/plain") /\
     exists ps, Forall2 about (descriptions l) ps /\ glued (txt "----" ++ [10]) ps (desc_value d)).
Proof. exact description_merged. Qed.
Print Assumptions C71_description.
Theorem C71_description_kept : forall today l m d, In m l -> md_description m = Some d ->
  exists d', md_description (merge_metadata today l) = Some d' /\ occurs_in (desc_value d) (desc_value d').
Proof. exact description_kept. Qed.
Print Assumptions C71_description_kept.
Example C71_description_sample : md_description (merge_set_metadata today sample) = Some (mkDesc
  (10 :: txt "Script: 'fr' - MIME-type: 'None':" ++ 10 :: txt "alphabet" ++ 10 :: txt "----" ++ 10 ::
   10 :: txt "Script: 'und-Arab' - MIME-type: 'text/html':" ++ 10 :: txt "abjad" ++ [10]) (Some (txt "text/plain"))).
Proof. vm_compute. reflexivity. Qed.
Theorem C71_nothing_said_refuted : exists l, l <> [] /\ (forall m, In m l -> md_version m = None /\ md_description m = None) /\
  md_version (merge_set_metadata today l) = Some (mkVersion [] (Some [])) /\
  md_description (merge_set_metadata today l) = Some (mkDesc [] (Some (txt "text/html"))).
Proof. exact nothing_said. Qed.
Print Assumptions C71_nothing_said_refuted.

(** The result can be written and read back, as merging does. *)
Theorem C71_read_back : forall lang_check dig, (forall c, 48 <= c <= 57 -> dig c = true) -> dig 46 = false ->
  forall today l g, full_date today -> (forall m, In m l -> meta_writable lang_check dig m /\ no_return m) ->
  proper g -> comments_writable (lg_refs g) ->
  exists m rm, process_meta lang_check dig false (serialize_meta (merge_set_metadata today l) (lg_refs g)) = (m, rm, Ok tt) /\
    same_metadata (merge_set_metadata today l) m /\ rm_refs rm = rm_refs (lg_refs g).
Proof. exact merged_read_back. Qed.
Print Assumptions C71_read_back.
Example C71_read_back_sample : forall m, In m [s_meta] -> meta_writable every_lang ascii_digit m /\ no_return m.
Proof. exact sample_writable. Qed.
