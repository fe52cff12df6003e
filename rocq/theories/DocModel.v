(** Model of reading and writing whole XML documents (lgr/parser/xml_parser.py,
    lgr/parser/xml_serializer.py), by way of the sections.  No proofs here.

    Simplifications: a document has its sections in the order of the schema
    (resources/lgr.rng:732-742), each at most once.  The Unicode database is
    given by its two models, that of the repertoire and that of classes. *)
From Verif Require Import Base MetaModel LgrModel ClassModel RuleModel ActionModel Rfc7940Model SerialModel RulesXmlModel.
Open Scope string_scope.
Open Scope list_scope.

Record document := mkDocument {
  dc_meta : option (list meta_elem);
  dc_data : list data_elem;
  dc_rules : option (list xelem)
}.
(** An LGR with its rules, and the cache of the rule objects. *)
Record loaded := mkLoaded {
  ld_meta : metadata;
  ld_lgr : lgr;
  ld_rules : ruleset;
  ld_cache : cache
}.
Definition database := (LgrModel.unidb * ClassModel.unidb)%type.

(** xml_parser.py:231-328 when there is no LGR (see [read_document]): TypeError
    stands for AttributeError on None.  What is wrong with the element itself
    may be raised before. *)
Fixpoint headless_data (l : list data_elem) : res unit :=
  match l with
  | [] => Ok tt
  | DOther :: l' => headless_data l'
  | DChar cp _ _ :: _ => bind (parse_cps cp) (fun _ => Raise TypeError)
  | DRange first last _ _ :: _ => bind (parse_cp first) (fun _ => bind (parse_cp last) (fun _ => Raise TypeError))
  end.
(** xml_parser.py:330-355 when there is no LGR. *)
Fixpoint headless_rules (l : list xelem) : res unit :=
  match l with
  | [] => Ok tt
  | e :: l' => if (class_tag e || has_tag "rule" e || has_tag "action" e)%bool then Raise TypeError else headless_rules l'
  end.

(** xml_parser.py:154-171 parse_document and 491-516 _fast_iter.  The test for a
    missing <meta> (497) compares an element with a name and never succeeds, so
    that without <meta> there is no LGR to fill. *)
Definition read_document (lang_check : cps -> option bool) (dig : N -> bool) (db : option database) (fuel : nat)
  (allow_invalid force : bool) (d : document) : res (option loaded) :=
  let rules := match dc_rules d with Some l => l | None => [] end in
  match dc_meta d with
  | None => bind (headless_data (dc_data d)) (fun _ => bind (headless_rules rules) (fun _ => Ok None))
  | Some ml =>
      match process_meta lang_check dig force ml with
      | (m, rm, Raise e) => Raise e
      | (m, rm, Ok _) =>
          match process_data force (set_refs (new_lgr (option_map fst db) allow_invalid) rm) (md_checks m) (dc_data d) with
          | (g, r, Raise e) => Raise e
          | (g, r, Ok _) =>
              bind (process_rules (option_map snd db) fuel force rules (before_rules (lg_tags g)) (fresh_read r)) (fun p =>
              Ok (Some (mkLoaded (set_md_checks m (report_tested (rd_results (snd p)) "parse_xml")) g (fst p) (rd_cache (snd p)))))
          end
      end
  end.

(** core.py:186-200, the setter of unicode_database, and parser.py:39-48: beyond
    a warning about versions nothing is checked.  Patterns are cached under the
    identity of the database (rule.py:77), so those computed with another one are
    not found again; that a new object may get the identity of a dead one is
    not modelled. *)
Definition set_database (db : LgrModel.unidb) (g : lgr) : lgr :=
  mkLgr (lg_rep g) (Some db) (lg_raise g) (lg_types g) (lg_refs g) (lg_tags g).
Definition give_database (db : database) (x : loaded) : loaded :=
  mkLoaded (ld_meta x) (set_database (fst db) (ld_lgr x)) (ld_rules x) [].

(** xml_serializer.py:19-39 serialize_lgr *)
Definition write_document (x : loaded) : document :=
  let d := serialize_lgr (ld_meta x) (ld_lgr x) in
  mkDocument (Some (x_meta d)) (x_data d) (Some (serialize_rules (ld_rules x))).
