(** Specification vocabulary for writing an LGR to XML and reading it back. *)
From Verif Require Import Base UtilsModel CharModel RepSpec RefModel LgrModel LgrSpec Rfc7940Model MetaModel MetaSpec PopulateSpec CompareSpec SerialModel.
Open Scope string_scope.
Open Scope list_scope.

(** Edits that need no force and keep ranges whole. *)
Inductive proper : lgr -> Prop :=
| pr_new : forall db allow, proper (new_lgr db allow)
| pr_step : forall g o, proper g -> tidy_op g o -> unforced o -> proper (fst (lgr_step g o)).

(** Words that survive a blank-separated attribute. *)
Definition spaceless (s : string) : Prop := ~ In 32 (txt s).
Definition writable_words (l : list string) : Prop := l <> [""] /\ forall w, In w l -> spaceless w.
Definition tags_writable (g : lgr) : Prop :=
  forall c ch, lookup (lg_rep g) c = Some ch -> writable_words (ch_tags ch).

(** [x] is part of an entry or of a variant. *)
Definition occurs (g : lgr) (x : N) : Prop :=
  exists c ch, lookup (lg_rep g) c = Some ch /\
    (In x c \/ exists v, In v (get_variants ch) /\ In x (v_cp v)).
(** The reader's Unicode database does not make it reject a code point of [g]. *)
Definition admits (db : option unidb) (allow : bool) (g : lgr) : Prop :=
  allow = true \/ forall x d, occurs g x -> db = Some d -> db_idna_valid d x = true.

(** The same entry with the same set of variants. *)
Definition same_char (ch ch' : char) : Prop :=
  same_entry ch ch' /\ get_variants ch' = get_variants ch.
Definition same_repertoire (g g' : lgr) : Prop :=
  forall c, match lookup (lg_rep g) c, lookup (lg_rep g') c with
            | Some ch, Some ch' => same_char ch ch'
            | None, None => True
            | _, _ => False
            end.

(** Same metadata; the collected test results aside. *)
Definition same_metadata (m m' : metadata) : Prop :=
  md_version m' = md_version m /\ md_date m' = md_date m /\ md_languages m' = md_languages m /\
  md_scopes m' = md_scopes m /\ md_start m' = md_start m /\ md_end m' = md_end m /\
  md_unicode m' = md_unicode m /\ md_description m' = md_description m.

(** Metadata every part of which passes the reader's own checks. *)
Definition meta_writable (lang_check : cps -> option bool) (dig : N -> bool) (m : metadata) : Prop :=
  full_date_or_none (md_date m) /\ full_date_or_none (md_start m) /\ full_date_or_none (md_end m) /\
  (exists v, md_unicode m = Some v /\ starts_with_version dig v) /\
  NoDup (md_languages m) /\ (forall l, In l (md_languages m) -> lang_check l = Some true) /\
  (forall d, md_description m = Some d ->
     (desc_value d <> [] \/ exists t, desc_type d = Some t /\ t <> txt "text/plain") /\ ~ In 13 (desc_value d)).

(** No reference has an empty comment. *)
Definition comments_writable (rm : refman) : Prop :=
  forall id r, dget String.eqb id (rm_refs rm) = Some r -> ref_comment r <> Some "".

(** ** Tolerant reading *)
(** The code point attributes of an element can be read. *)
Definition readable (e : data_elem) : Prop :=
  match e with
  | DChar cp _ vs => (exists c, parse_cps cp = Ok c) /\ forall v, In v vs -> exists c, parse_cps (ve_cp v) = Ok c
  | DRange f l _ _ => (exists x, parse_cp f = Ok x) /\ exists y, parse_cp l = Ok y
  | DOther => True
  end.
(** The code points an element stands for. *)
Definition stands_for (e : data_elem) (c : cps) : Prop :=
  match e with
  | DChar cp _ _ => parse_cps cp = Ok c
  | DRange f l _ _ => exists x y z, parse_cp f = Ok x /\ parse_cp l = Ok y /\ x <= z <= y /\ c = [z]
  | DOther => False
  end.
Definition is_range_elem (e : data_elem) : bool := match e with DRange _ _ _ _ => true | _ => false end.
(** Neither the code point nor the LGR makes the entry impossible. *)
Definition acceptable (g : lgr) (c : cps) : Prop :=
  c <> [] /\ (lg_raise g = true -> forall x, In x c -> ~ idna_invalid g x).

(** No two sequences start with the same code point. *)
Definition starts_once (g : lgr) : Prop :=
  forall c d, present g c -> present g d -> (2 <= length c)%nat -> (2 <= length d)%nat -> hd 0 c = hd 0 d -> c = d.
