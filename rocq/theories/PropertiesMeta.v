(** Metadata of an LGR: what the setters store, and what the RFC 7940 metadata
    check decides. *)
From Verif Require Import Base UtilsModel Rfc7940Model MetaModel MetaSpec MetaProofs MetaFinal.
Open Scope string_scope.
Open Scope list_scope.

(** C39: a date is stored exactly when it is the full-date of an existing day;
    otherwise an exception is raised and the metadata is unchanged. *)
Theorem C39_set_date : forall m s,
  let '(m', x) := md_set_date m s false in
  same_but_date m m' /\
  ((full_date s /\ x = Ok tt /\ md_date m' = Some s) \/
   (~ full_date s /\ (x = Raise (LGRFormatException INVALID_DATE_TAG) \/ x = Raise OverflowError) /\ m' = m)).
Proof. exact set_date_spec. Qed.
Print Assumptions C39_set_date.
Theorem C39_set_validity_start : forall m s,
  let '(m', x) := md_set_start m s false in
  same_but_start m m' /\
  ((full_date s /\ x = Ok tt /\ md_start m' = Some s) \/
   (~ full_date s /\ (x = Raise (LGRFormatException INVALID_DATE_TAG) \/ x = Raise OverflowError) /\ m' = m)).
Proof. exact set_start_spec. Qed.
Print Assumptions C39_set_validity_start.
Theorem C39_set_validity_end : forall m s,
  let '(m', x) := md_set_end m s false in
  same_but_end m m' /\
  ((full_date s /\ x = Ok tt /\ md_end m' = Some s) \/
   (~ full_date s /\ (x = Raise (LGRFormatException INVALID_DATE_TAG) \/ x = Raise OverflowError) /\ m' = m)).
Proof. exact set_end_spec. Qed.
Print Assumptions C39_set_validity_end.

(** With and without force, every outcome of the date check; [oversized]: one
    of the three numbers does not fit a machine integer. *)
Theorem C39_date_outcomes : forall s force,
  (full_date s /\ validate_date s force = Ok s) \/
  (~ full_date s /\ oversized s /\ validate_date s force = Raise OverflowError) \/
  (~ full_date s /\ ~ oversized s /\
   validate_date s force = if force then Ok s else Raise (LGRFormatException INVALID_DATE_TAG)).
Proof. exact validate_date_cases. Qed.
Print Assumptions C39_date_outcomes.

(** After any history without force, the dates held are valid. *)
Theorem C39_dates_always_valid : forall lang_check dig ops, Forall unforced ops ->
  let m := md_run lang_check dig ops in
  full_date_or_none (md_date m) /\ full_date_or_none (md_start m) /\ full_date_or_none (md_end m).
Proof. exact dates_always_valid. Qed.
Print Assumptions C39_dates_always_valid.

(** Languages, when the tag library can encode every tag (ASCII). *)
Theorem C39_set_languages_partial : forall lang_check m l, Forall (fun x => lang_check x <> None) l ->
  let '(m', x) := md_set_languages lang_check m l false in
  (Forall (fun t => lang_check t = Some true) l /\ x = Ok tt /\ md_languages m' = l /\
   same_but_languages m m' /\ md_checks m' = md_checks m) \/
  (~ Forall (fun t => lang_check t = Some true) l /\ x = Raise (LGRFormatException INVALID_LANGUAGE_TAG) /\ m' = m).
Proof. exact set_languages_spec. Qed.
Print Assumptions C39_set_languages_partial.
Theorem C39_languages_always_valid_partial : forall lang_check dig ops, Forall unforced ops -> Forall (ascii_tags lang_check) ops ->
  Forall (fun t => lang_check t = Some true) (md_languages (md_run lang_check dig ops)).
Proof. exact languages_always_valid. Qed.
Print Assumptions C39_languages_always_valid_partial.
Theorem C39_add_language : forall lang_check m l,
  let '(m', x) := md_add_language lang_check m l false in
  same_but_languages m m' /\
  ((lang_check l = Some true /\ x = Ok tt /\ (forall t, In t (md_languages m') <-> t = l \/ In t (md_languages m)) /\
    (exists tl, md_languages m' = md_languages m ++ tl) /\ (NoDup (md_languages m) -> NoDup (md_languages m'))) \/
   (lang_check l <> Some true /\ x = Raise (LGRFormatException INVALID_LANGUAGE_TAG) /\ md_languages m' = md_languages m /\
    dget String.eqb "metadata_language" (md_checks m') = Some false)).
Proof. exact add_language_spec. Qed.
Print Assumptions C39_add_language.
Theorem C39_languages_given : forall lang_check m l force t,
  In t (md_languages (fst (md_set_languages lang_check m l force))) -> In t l \/ In t (md_languages m).
Proof. exact set_languages_subset. Qed.
Print Assumptions C39_languages_given.
(** The loop over a list it shrinks always ends. *)
Theorem C39_set_languages_ends : forall lang_check m l force, snd (md_set_languages lang_check m l force) <> Raise OutOfFuel.
Proof. exact set_languages_total. Qed.
Print Assumptions C39_set_languages_ends.

(** A tag that follows a non-ASCII one is never checked: without force, a
    non-ASCII or invalid tag can be stored. *)
Theorem C39_languages_unencodable_refuted : exists lang_check l t,
  In t (md_languages (fst (md_set_languages lang_check new_metadata l false))) /\
  snd (md_set_languages lang_check new_metadata l false) = Ok tt /\ lang_check t = None.
Proof. exact languages_unchecked. Qed.
Print Assumptions C39_languages_unencodable_refuted.
Theorem C39_languages_invalid_refuted : exists lang_check l t,
  In t (md_languages (fst (md_set_languages lang_check new_metadata l false))) /\
  snd (md_set_languages lang_check new_metadata l false) = Ok tt /\ lang_check t = Some false.
Proof. exact languages_invalid_stored. Qed.
Print Assumptions C39_languages_invalid_refuted.
(** With force the date setter still raises on huge numbers. *)
Theorem C39_forced_date_refuted : exists s, md_set_date new_metadata s true = (new_metadata, Raise OverflowError).
Proof. exact forced_date_raises. Qed.
Print Assumptions C39_forced_date_refuted.

(** The Unicode version is stored when it starts like x.y.z... *)
Theorem C39_unicode_version : forall dig, dig 46 = false -> forall m v,
  let '(m', x) := md_set_unicode_version dig m v false in
  same_but_unicode m m' /\
  ((starts_with_version dig v /\ x = Ok tt /\ md_unicode m' = Some v /\ md_checks m' = md_checks m) \/
   (~ starts_with_version dig v /\ x = Raise (LGRFormatException INVALID_UNICODE_VERSION_TAG) /\ md_unicode m' = md_unicode m /\
    dget String.eqb "valid_unicode_version" (md_checks m') = Some false)).
Proof. exact set_unicode_version_spec. Qed.
Print Assumptions C39_unicode_version.
(** ... whatever follows. *)
Theorem C39_unicode_version_form_refuted : exists v, let '(m, x) := md_set_unicode_version ascii_digit new_metadata v false in
  x = Ok tt /\ md_unicode m = Some v /\
  ~ exists a b c, digit_run ascii_digit a /\ digit_run ascii_digit b /\ digit_run ascii_digit c /\ v = a ++ [46] ++ b ++ [46] ++ c.
Proof. exact unicode_version_loose. Qed.
Print Assumptions C39_unicode_version_form_refuted.

Example C39_nontrivial :
  full_date (txt "2024-02-29") /\ validate_date (txt "2023-02-29") false = Raise (LGRFormatException INVALID_DATE_TAG) /\
  validate_date (txt "2024-2-9") false = Raise (LGRFormatException INVALID_DATE_TAG) /\
  md_date (fst (md_set_date new_metadata (txt "2024-02-29") false)) = Some (txt "2024-02-29").
Proof.
  split; [|vm_compute; auto]. exists (mkDay 2024 2 29). split; [|vm_compute; reflexivity].
  split; [cbn; lia|]. apply Day_leap. split; [reflexivity|left; discriminate].
Qed.

(** C46: texts of valid dates compare as the days they denote. *)
Theorem C46_dates_compare : forall a b, exists_day a -> exists_day b ->
  (text_gtb (written a) (written b) = true <-> before b a).
Proof. exact dates_ordered. Qed.
Print Assumptions C46_dates_compare.

(** The metadata check succeeds exactly when all its conditions hold, and each
    recorded test result tells its own condition. *)
Theorem C46_check_metadata : forall mime dig, dig 10 = false -> forall today m,
  exists_day today -> full_date_or_none (md_start m) -> full_date_or_none (md_end m) ->
  let '(ok, r) := check_metadata (written today) mime dig m [] in
  (ok = true <-> not_expired today m /\ interval_ok m /\ started today m /\ media_type_ok mime m /\ scopes_ok m /\ version_number_ok dig m) /\
  tells r "validity_end_expiry" (not_expired today m) /\ tells r "validity_start_end" (interval_ok m) /\
  tells r "validity_started" (started today m) /\ tells r "metadata_description_type" (media_type_ok mime m) /\
  tells r "metadata_scope_type" (scopes_ok m) /\ tells r "metadata_version_integer" (version_number_ok dig m).
Proof. exact check_metadata_spec. Qed.
Print Assumptions C46_check_metadata.
(** "1" followed by a line feed passes as a positive integer. *)
Theorem C46_version_newline_refuted : exists m,
  fst (check_metadata (written (mkDay 2024 1 1)) (fun _ => true) ascii_digit m []) = true /\
  md_version m = Some (mkVersion [49; 10] None).
Proof. exact version_newline. Qed.
Print Assumptions C46_version_newline_refuted.

Example C46_nontrivial :
  let m := mkMeta (Some (mkVersion (txt "0") None)) None [] [] (Some (txt "2024-02-29")) (Some (txt "2024-01-31")) None None [] in
  let '(ok, r) := check_metadata (txt "2024-02-01") (fun _ => true) ascii_digit m [] in
  ok = false /\ dget String.eqb "validity_end_expiry" r = Some false /\ dget String.eqb "validity_start_end" r = Some false /\
  dget String.eqb "validity_started" r = Some false /\ dget String.eqb "metadata_scope_type" r = Some true /\
  dget String.eqb "metadata_version_integer" r = Some false.
Proof. vm_compute. auto 10. Qed.
