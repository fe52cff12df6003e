(** Specification of the parser objects. *)
From Verif Require Import Base MetaModel LgrModel Rfc7940Model SerialModel RulesXmlModel DocModel ParserModel.
Open Scope string_scope.
Open Scope list_scope.

(** The same metadata; what was recorded about the document aside. *)
Definition same_meta (m m' : metadata) : Prop :=
  md_version m = md_version m' /\ md_date m = md_date m' /\ md_languages m = md_languages m' /\ md_scopes m = md_scopes m' /\
  md_start m = md_start m' /\ md_end m = md_end m' /\ md_unicode m = md_unicode m' /\ md_description m = md_description m'.
(** The same LGR, with its rules and patterns. *)
Definition same_loaded (x x' : loaded) : Prop :=
  same_meta (ld_meta x) (ld_meta x') /\ ld_lgr x = ld_lgr x' /\ ld_rules x = ld_rules x' /\ ld_cache x = ld_cache x'.
(** The recorded result of a test. *)
Definition recorded (r : results) (t : string) : option bool := dget String.eqb t r.
(** A source that can be read again after validation. *)
Definition rereadable (s : source) : Prop := s <> Opened false.
(** The right answer about a document read as [x] that conforms or not. *)
Inductive right (x : loaded) (conforms : bool) : ask -> answer -> Prop :=
| right_validate : right x conforms Validate (Errors (negb conforms))
| right_version : right x conforms Version (UnicodeVersion (md_unicode (ld_meta x)))
| right_parse : forall x', same_loaded x x' -> right x conforms Parse (Parsed (Some x')).
