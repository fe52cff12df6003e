(** Specification of the miscellaneous checks, of the IDNA 2008 report and of
    the script of a root zone label (C55, C56, C57). *)
From Verif Require Import Base CharModel RepSpec ActionModel LgrModel LgrSpec Rfc7940Model Rfc7940Spec ValidateSpec CompareModel MetaModel ChecksModel.
From Coq Require Import Ascii.
Open Scope string_scope.
Open Scope list_scope.

(** A variant type that RFC 7940 does not allow. *)
Definition unusable (t : string) : Prop :=
  t = "" \/ (exists r, t = String "_" r) \/ (exists a b, t = (a ++ String " " b)%string).
(** The types, code points and reference lists that occur in an LGR. *)
Definition used_type (g : lgr) (t : string) : Prop := exists a b v, mapping (lg_rep g) a b v /\ v_type v = Some t.
Definition used_code_point (g : lgr) (x : N) : Prop :=
  (exists c, lookup (lg_rep g) c <> None /\ In x c) \/ (exists a b v, mapping (lg_rep g) a b v /\ In x b).
Definition used_refs (g : lgr) (refs : list string) : Prop :=
  (exists c ch, lookup (lg_rep g) c = Some ch /\ refs = ch_refs ch) \/
  (exists a b v, mapping (lg_rep g) a b v /\ refs = v_refs v).
Definition idna_ok (db : ucd) (x : N) : Prop :=
  ucd_idna db x = "PVALID" \/ ucd_idna db x = "CONTEXTJ" \/ ucd_idna db x = "CONTEXTO".

(** [s] is the decimal writing of [n]; a line feed may follow. *)
Definition LF : string := String (ascii_of_N 10) "".
Fixpoint written (ds : list N) : string :=
  match ds with [] => "" | d :: ds' => String (ascii_of_N (48 + d)) (written ds') end.
Definition value (ds : list N) : N := fold_left (fun a d => a * 10 + d)%N ds 0%N.
Definition numeral (s : string) (n : N) : Prop :=
  exists ds, ds <> [] /\ Forall (fun d => d < 10)%N ds /\ value ds = n /\
             (s = written ds \/ s = (written ds ++ LF)%string).
(** Among the references before the first one that is not a number, each is
    greater than the one before. *)
Definition ascending (refs : list string) : Prop :=
  forall before p n after i j, refs = before ++ p :: n :: after ->
  (forall s, In s before -> exists k, numeral s k) -> numeral p i -> numeral n j -> (i < j)%N.

Definition standard (disp : string) : Prop :=
  disp = "invalid" \/ disp = "blocked" \/ disp = "allocatable" \/ disp = "activated" \/ disp = "valid".
Definition rules_ok (d : doc) : Prop := forall a, In a (doc_actions d) -> standard (a_disp a).
Definition types_ok (g : lgr) : Prop := forall t, used_type g t -> ~ unusable t.
Definition code_points_ok (db : ucd) (g : lgr) : Prop := forall x, used_code_point g x -> idna_ok db x.
Definition refs_ok (g : lgr) : Prop := forall refs, used_refs g refs -> ascending refs.
Definition same_version (db : ucd) (d : doc) : Prop := md_unicode (doc_meta d) = Some (ucd_version db).

(** An entry declared out of the repertoire by a variant of itself. *)
Definition declared_out (g : lgr) (c : cps) : Prop :=
  exists v t r, mapping (lg_rep g) c c v /\ v_type v = Some t /\ lower t = ("out-of-repertoire" ++ r)%string.

(** ** Script of a root zone label *)
Definition neutral (s : string) : Prop := s = "Zyyy" \/ s = "Zinh".
Definition is_kana (s : string) : Prop := s = "Hira" \/ s = "Kana".
(** Name of the LGR for a script: Japanese for the kana, Korean for Hangul. *)
Definition lgr_tag (s : string) (tag : string) : Prop :=
  (is_kana s -> tag = "und-Jpan") /\ (s = "Hang" -> tag = "und-Kore") /\
  (~ is_kana s -> s <> "Hang" -> tag = ("und-" ++ s)%string).
(** [x] is the first code point of the label with a script of its own. *)
Definition first_own (script : N -> string) (label before : cps) (x : N) : Prop :=
  (exists after, label = before ++ x :: after) /\ (forall y, In y before -> neutral (script y)) /\ ~ neutral (script x).
