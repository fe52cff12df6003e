(** Model of the metadata of an LGR (lgr/metadata.py, except the reference
    manager of RefModel) and of its RFC 7940 check (lgr/validate/metadata.py).
    No proofs here.

    Texts are lists of code points.  Outside the model and passed as arguments:
    the language tag library ([lang_check]: [None] = UnicodeEncodeError), the
    MIME type table, the decimal digits of Unicode and the current date.  Log
    messages dropped. *)
From Verif Require Import Base UtilsModel Rfc7940Model.
Open Scope string_scope.
Open Scope list_scope.

(** metadata.py:78-97 Version, 99-121 Scope, 123-146 Description. *)
Record version : Type := mkVersion { ver_value : cps; ver_comment : option cps }.
Record scope : Type := mkScope { sc_value : cps; sc_type : option cps }.
Record description : Type := mkDesc { desc_value : cps; desc_type : option cps }.

(** metadata.py:153-165 Metadata.__init__. *)
Record metadata : Type := mkMeta {
  md_version : option version;
  md_date : option cps;
  md_languages : list cps;
  md_scopes : list scope;
  md_start : option cps;
  md_end : option cps;
  md_unicode : option cps;
  md_description : option description;
  md_checks : results
}.
Definition new_metadata : metadata :=
  mkMeta None None [] [] None None (Some (txt "6.3.0")) None [].

Definition set_md_date (m : metadata) (d : option cps) : metadata :=
  mkMeta (md_version m) d (md_languages m) (md_scopes m) (md_start m) (md_end m) (md_unicode m) (md_description m) (md_checks m).
Definition set_md_start (m : metadata) (d : option cps) : metadata :=
  mkMeta (md_version m) (md_date m) (md_languages m) (md_scopes m) d (md_end m) (md_unicode m) (md_description m) (md_checks m).
Definition set_md_end (m : metadata) (d : option cps) : metadata :=
  mkMeta (md_version m) (md_date m) (md_languages m) (md_scopes m) (md_start m) d (md_unicode m) (md_description m) (md_checks m).
Definition set_md_languages (m : metadata) (l : list cps) : metadata :=
  mkMeta (md_version m) (md_date m) l (md_scopes m) (md_start m) (md_end m) (md_unicode m) (md_description m) (md_checks m).
Definition set_md_unicode (m : metadata) (d : option cps) : metadata :=
  mkMeta (md_version m) (md_date m) (md_languages m) (md_scopes m) (md_start m) (md_end m) d (md_description m) (md_checks m).
Definition set_md_checks (m : metadata) (c : results) : metadata :=
  mkMeta (md_version m) (md_date m) (md_languages m) (md_scopes m) (md_start m) (md_end m) (md_unicode m) (md_description m) c.

(** datetime.date(year, month, day): the arguments are C ints. *)
Definition c_int (z : Z) : bool := ((- 2147483648 <=? z) && (z <=? 2147483647))%Z.
Definition is_leap (y : Z) : bool :=
  ((y mod 4 =? 0) && (negb (y mod 100 =? 0) || (y mod 400 =? 0)))%Z.
Definition days_in_month (y m : Z) : Z :=
  if (m =? 2)%Z then (if is_leap y then 29 else 28)%Z
  else if ((m =? 4) || (m =? 6) || (m =? 9) || (m =? 11))%Z then 30%Z else 31%Z.
Definition date_object (y m d : Z) : res (Z * Z * Z) :=
  if negb (c_int y && c_int m && c_int d) then Raise OverflowError
  else if negb ((1 <=? y) && (y <=? 9999))%Z then Raise ValueError
  else if negb ((1 <=? m) && (m <=? 12))%Z then Raise ValueError
  else if negb ((1 <=? d) && (d <=? days_in_month y m))%Z then Raise ValueError
  else Ok (y, m, d).
(** date.isoformat(): "%04d-%02d-%02d" (the numbers are positive here). *)
Definition padded (k : nat) (z : Z) : cps :=
  let d := digits 10 (Z.to_N z) in pad0 (k - length d) d.
Definition isoformat (y m d : Z) : cps := padded 4 y ++ [45] ++ padded 2 m ++ [45] ++ padded 2 d.

(** metadata.py:28-75 _validate_date. *)
Definition invalid_date (date : cps) (force : bool) : res cps :=
  if force then Ok date else Raise (LGRFormatException INVALID_DATE_TAG).
Definition validate_date (date : cps) (force : bool) : res cps :=
  match split_on 45 date with
  | [a; b; c] =>
      match mapM_res (py_int 10) [a; b; c] with
      | Ok [y; m; d] =>
          match date_object y m d with
          | Ok (y, m, d) => if cps_eqb (isoformat y m d) date then Ok date else invalid_date date force
          | Raise ValueError => invalid_date date force
          | Raise e => Raise e
          end
      | Ok _ => invalid_date date force
      | Raise ValueError => invalid_date date force
      | Raise e => Raise e
      end
  | _ => invalid_date date force
  end.

(** metadata.py:257-272 set_date, 274-289 set_validity_start, 291-306
    set_validity_end. *)
Definition md_set_date (m : metadata) (d : cps) (force : bool) : metadata * res unit :=
  match validate_date d force with
  | Ok d => (set_md_date m (Some d), Ok tt)
  | Raise e => (m, Raise e)
  end.
Definition md_set_start (m : metadata) (d : cps) (force : bool) : metadata * res unit :=
  match validate_date d force with
  | Ok d => (set_md_start m (Some d), Ok tt)
  | Raise e => (m, Raise e)
  end.
Definition md_set_end (m : metadata) (d : cps) (force : bool) : metadata * res unit :=
  match validate_date d force with
  | Ok d => (set_md_end m (Some d), Ok tt)
  | Raise e => (m, Raise e)
  end.

(** metadata.py:195-226 add_language. *)
Definition md_add_language (lang_check : cps -> option bool) (m : metadata) (l : cps) (force : bool)
  : metadata * res unit :=
  match lang_check l with
  | None => (set_md_checks m (report_error (md_checks m) "metadata_language"),
             Raise (LGRFormatException INVALID_LANGUAGE_TAG))
  | Some ok =>
      let m1 := if ok then m else set_md_checks m (report_error (md_checks m) "metadata_language") in
      if negb ok && negb force then (m1, Raise (LGRFormatException INVALID_LANGUAGE_TAG))
      else
        let m2 := set_md_checks m1 (report_tested (md_checks m1) "metadata_language") in
        (if memb cps_eqb l (md_languages m2) then m2 else set_md_languages m2 (md_languages m2 ++ [l]), Ok tt)
  end.

(** metadata.py:238-251: the for loop indexes the list it removes from; [i] is
    the position of the iterator. *)
Fixpoint scan_languages (lang_check : cps -> option bool) (fuel : nat) (i : nat) (l : list cps) (err : bool)
  : option (list cps * bool) :=
  match nth_error l i with
  | None => Some (l, err)
  | Some x =>
      match fuel with
      | O => None
      | S f =>
          match lang_check x with
          | None => scan_languages lang_check f (S i) (remove1 cps_eqb x l) err
          | Some ok => scan_languages lang_check f (S i) l (err || negb ok)
          end
      end
  end.
(** metadata.py:228-255 set_languages. *)
Definition md_set_languages (lang_check : cps -> option bool) (m : metadata) (l : list cps) (force : bool)
  : metadata * res unit :=
  match scan_languages lang_check (length l) 0 l false with
  | None => (m, Raise OutOfFuel)
  | Some (l', err) =>
      if err && negb force then (m, Raise (LGRFormatException INVALID_LANGUAGE_TAG))
      else (set_md_languages m l', Ok tt)
  end.

(** metadata.py:325: re.match of digits, dot, digits, dot, digits at the
    start; [dig] tells the characters matched by \d. *)
Fixpoint drop_while (p : N -> bool) (s : cps) : cps :=
  match s with [] => [] | c :: r => if p c then drop_while p r else s end.
Definition some_digits (dig : N -> bool) (s : cps) : option cps :=
  match s with c :: r => if dig c then Some (drop_while dig r) else None | [] => None end.
Definition dot_digits (dig : N -> bool) (s : cps) : option cps :=
  match s with c :: r => if N.eqb c 46 then some_digits dig r else None | [] => None end.
Definition version_prefix (dig : N -> bool) (s : cps) : bool :=
  match some_digits dig s with
  | None => false
  | Some s1 => match dot_digits dig s1 with
               | None => false
               | Some s2 => match dot_digits dig s2 with None => false | Some _ => true end
               end
  end.
(** metadata.py:308-334 set_unicode_version. *)
Definition md_set_unicode_version (dig : N -> bool) (m : metadata) (v : cps) (force : bool)
  : metadata * res unit :=
  if version_prefix dig v then (set_md_unicode m (Some v), Ok tt)
  else
    let m1 := set_md_checks m (report_error (md_checks m) "valid_unicode_version") in
    if force then (set_md_unicode m1 (Some v), Ok tt)
    else (m1, Raise (LGRFormatException INVALID_UNICODE_VERSION_TAG)).

(** Operations, for histories. *)
Inductive md_op : Type :=
| MDate (d : cps) (force : bool) | MStart (d : cps) (force : bool) | MEnd_ (d : cps) (force : bool)
| MAddLang (l : cps) (force : bool) | MSetLangs (l : list cps) (force : bool)
| MUnicode (v : cps) (force : bool).
Definition md_step (lang_check : cps -> option bool) (dig : N -> bool) (m : metadata) (o : md_op)
  : metadata * res unit :=
  match o with
  | MDate d f => md_set_date m d f
  | MStart d f => md_set_start m d f
  | MEnd_ d f => md_set_end m d f
  | MAddLang l f => md_add_language lang_check m l f
  | MSetLangs l f => md_set_languages lang_check m l f
  | MUnicode v f => md_set_unicode_version dig m v f
  end.
Definition md_run (lang_check : cps -> option bool) (dig : N -> bool) (ops : list md_op) : metadata :=
  fold_left (fun m o => fst (md_step lang_check dig m o)) ops new_metadata.

(** ** validate/metadata.py *)
(** a > b on Python strings. *)
Definition text_gtb (a b : cps) : bool := negb (cps_leb a b).
(** The test failed: [bad], then the test is reported as executed. *)
Definition outcome (test : string) (bad : bool) (r : results) : results :=
  report_tested (if bad then report_error r test else r) test.
Definition bad_end (today : cps) (m : metadata) : bool :=
  match md_end m with Some e => text_gtb today e | None => false end.
Definition bad_interval (m : metadata) : bool :=
  match md_start m, md_end m with Some s, Some e => text_gtb s e | _, _ => false end.
Definition bad_start (today : cps) (m : metadata) : bool :=
  match md_start m with Some s => text_gtb s today | None => false end.
Definition bad_description (mime : cps -> bool) (m : metadata) : bool :=
  match md_description m with
  | Some d => match desc_type d with Some t => negb (mime t) | None => false end
  | None => false
  end.
Definition bad_scope (s : scope) : bool :=
  match sc_type s with None => false | Some t => negb (cps_eqb t (txt "domain")) end.
(** metadata.py:79: re.match('[1-9]\d*$'); '$' also matches before a final
    newline. *)
Definition version_ok (dig : N -> bool) (v : cps) : bool :=
  match v with
  | c :: r => N.leb 49 c && N.leb c 57 &&
              match drop_while dig r with [] => true | [10] => true | _ => false end
  | [] => false
  end.
Definition bad_version (dig : N -> bool) (m : metadata) : bool :=
  match md_version m with Some v => negb (version_ok dig (ver_value v)) | None => false end.

(** validate/metadata.py:18-86 check_metadata: verdict and RFC 7940 results. *)
Definition check_metadata (today : cps) (mime : cps -> bool) (dig : N -> bool) (m : metadata) (r0 : results)
  : bool * results :=
  let r1 := outcome "validity_end_expiry" (bad_end today m) r0 in
  let r2 := outcome "validity_start_end" (bad_interval m) r1 in
  let r3 := outcome "validity_started" (bad_start today m) r2 in
  let r4 := outcome "metadata_description_type" (bad_description mime m) r3 in
  let r5 := outcome "metadata_scope_type" (existsb bad_scope (md_scopes m)) r4 in
  let r6 := outcome "metadata_version_integer" (bad_version dig m) r5 in
  (negb (bad_end today m || bad_interval m || bad_start today m || bad_description mime m
         || existsb bad_scope (md_scopes m) || bad_version dig m), r6).
