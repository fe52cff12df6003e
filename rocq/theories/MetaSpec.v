(** What the metadata operations are meant to do.  No model code is used here
    except the record of metadata. *)
From Verif Require Import Base Rfc7940Model MetaModel.
Open Scope string_scope.
Open Scope list_scope.

(** Decimal notation of a number on exactly [k] digits. *)
Fixpoint dec (k : nat) (n : N) : cps :=
  match k with O => [] | S k' => dec k' (n / 10) ++ [48 + n mod 10] end.

(** The Gregorian calendar. *)
Definition leap (y : N) : Prop := y mod 4 = 0 /\ (y mod 100 <> 0 \/ y mod 400 = 0).
Inductive day_of (y : N) : N -> N -> Prop :=
| Day_31 : forall m d, In m [1; 3; 5; 7; 8; 10; 12] -> 1 <= d <= 31 -> day_of y m d
| Day_30 : forall m d, In m [4; 6; 9; 11] -> 1 <= d <= 30 -> day_of y m d
| Day_feb : forall d, 1 <= d <= 28 -> day_of y 2 d
| Day_leap : leap y -> day_of y 2 29.

(** RFC 3339 full-date of a day that exists: YYYY-MM-DD. *)
Record day : Type := mkDay { d_year : N; d_month : N; d_day : N }.
Definition exists_day (t : day) : Prop := 1 <= d_year t <= 9999 /\ day_of (d_year t) (d_month t) (d_day t).
Definition written (t : day) : cps := dec 4 (d_year t) ++ [45] ++ dec 2 (d_month t) ++ [45] ++ dec 2 (d_day t).
Definition full_date (s : cps) : Prop := exists t, exists_day t /\ s = written t.
Definition full_date_or_none (o : option cps) : Prop := forall s, o = Some s -> full_date s.

(** Chronological order. *)
Definition before (a b : day) : Prop :=
  d_year a < d_year b \/
  (d_year a = d_year b /\ (d_month a < d_month b \/ (d_month a = d_month b /\ d_day a < d_day b))).

(** Which fields an operation may touch. *)
Definition same_but_date (m m' : metadata) : Prop :=
  md_version m' = md_version m /\ md_languages m' = md_languages m /\ md_scopes m' = md_scopes m /\
  md_start m' = md_start m /\ md_end m' = md_end m /\ md_unicode m' = md_unicode m /\
  md_description m' = md_description m /\ md_checks m' = md_checks m.
Definition same_but_start (m m' : metadata) : Prop :=
  md_version m' = md_version m /\ md_languages m' = md_languages m /\ md_scopes m' = md_scopes m /\
  md_date m' = md_date m /\ md_end m' = md_end m /\ md_unicode m' = md_unicode m /\
  md_description m' = md_description m /\ md_checks m' = md_checks m.
Definition same_but_end (m m' : metadata) : Prop :=
  md_version m' = md_version m /\ md_languages m' = md_languages m /\ md_scopes m' = md_scopes m /\
  md_date m' = md_date m /\ md_start m' = md_start m /\ md_unicode m' = md_unicode m /\
  md_description m' = md_description m /\ md_checks m' = md_checks m.
Definition same_but_languages (m m' : metadata) : Prop :=
  md_version m' = md_version m /\ md_date m' = md_date m /\ md_scopes m' = md_scopes m /\
  md_start m' = md_start m /\ md_end m' = md_end m /\ md_unicode m' = md_unicode m /\
  md_description m' = md_description m.
Definition same_but_unicode (m m' : metadata) : Prop :=
  md_version m' = md_version m /\ md_date m' = md_date m /\ md_languages m' = md_languages m /\
  md_scopes m' = md_scopes m /\ md_start m' = md_start m /\ md_end m' = md_end m /\
  md_description m' = md_description m.

(** A run of at least one digit. *)
Definition digit_run (dig : N -> bool) (s : cps) : Prop := s <> [] /\ Forall (fun c => dig c = true) s.
(** x.y.z, possibly followed by more text. *)
Definition starts_with_version (dig : N -> bool) (s : cps) : Prop :=
  exists x y z rest, digit_run dig x /\ digit_run dig y /\ digit_run dig z /\
    s = x ++ [46] ++ y ++ [46] ++ z ++ rest.
(** A positive decimal integer, possibly followed by one line feed. *)
Definition positive_integer (dig : N -> bool) (s : cps) : Prop :=
  exists c r, 49 <= c <= 57 /\ Forall (fun c => dig c = true) r /\ (s = c :: r \/ s = c :: r ++ [10]).
Definition ascii_digit (c : N) : bool := N.leb 48 c && N.leb c 57.

(** Operations that do not ask for invalid values to be kept. *)
Definition unforced (o : md_op) : Prop :=
  match o with
  | MDate _ f | MStart _ f | MEnd_ _ f | MAddLang _ f | MSetLangs _ f | MUnicode _ f => f = false
  end.

(** The conditions of the RFC 7940 metadata tests, for metadata whose dates
    are full dates. *)
Definition not_expired (today : day) (m : metadata) : Prop :=
  forall t, exists_day t -> md_end m = Some (written t) -> ~ before t today.
Definition interval_ok (m : metadata) : Prop :=
  forall s e, exists_day s -> exists_day e -> md_start m = Some (written s) -> md_end m = Some (written e) -> ~ before e s.
Definition started (today : day) (m : metadata) : Prop :=
  forall t, exists_day t -> md_start m = Some (written t) -> ~ before today t.
Definition media_type_ok (mime : cps -> bool) (m : metadata) : Prop :=
  forall d t, md_description m = Some d -> desc_type d = Some t -> mime t = true.
Definition scopes_ok (m : metadata) : Prop :=
  forall s, In s (md_scopes m) -> sc_type s = None \/ sc_type s = Some (UtilsModel.txt "domain").
Definition version_number_ok (dig : N -> bool) (m : metadata) : Prop :=
  forall v, md_version m = Some v -> positive_integer dig (ver_value v).
(** The recorded result of a test tells whether its condition holds. *)
Definition tells (r : results) (test : string) (P : Prop) : Prop :=
  (dget String.eqb test r = Some true <-> P) /\ (dget String.eqb test r = Some false <-> ~ P).
