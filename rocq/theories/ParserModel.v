(** Model of the parser objects of lgr/parser: validation, the Unicode version
    and parsing may be asked of one parser in any order, with one record of test
    results.  No proofs here.

    Simplifications: a document is given by its sections (DocModel.v); the
    RelaxNG validator is an argument, its answer for the document; what is
    recorded before an exception is dropped; opened sources have seek. *)
From Verif Require Import Base RefModel MetaModel LgrModel ClassModel RuleModel ActionModel Rfc7940Model SerialModel RulesXmlModel DocModel.
Open Scope string_scope.
Open Scope list_scope.

(** A file given by its name, or an open one.  etree.parse takes the content of
    an object in memory without moving in it, and reads any other open file to
    its end: [kept] tells whether the position is kept. *)
Inductive source : Type := Named | Opened (kept : bool).
(** xml_parser.py:109-111 and parser.py:20-36; [xp_start]: the source is at its
    start. *)
Record xparser := mkParser { xp_checks : results; xp_start : bool; xp_lgr : option loaded }.
Definition new_parser : xparser := mkParser [] true None.
Inductive ask : Type := Validate | Version | Parse.
Inductive answer : Type :=
| Errors (found : bool)              (** an error log, or None *)
| UnicodeVersion (v : option cps)
| Parsed (x : option loaded).

Section Parser.
  Variable lang_check : cps -> option bool.
  Variable dig : N -> bool.
  Variable db : option database.
  Variable fuel : nat.
  Variables allow_invalid force : bool.
  Variable d : document.
  Variable conforms : bool.
  Variable src : source.

  (** xml_parser.py:176-229 _process_meta, with the results recorded so far. *)
  Definition meta_from (r : results) (l : list meta_elem) : metadata * refman * res unit :=
    match process_meta_loop lang_check dig force (set_md_checks new_metadata r) empty_refman l with
    | (m, rm, Ok _) =>
        (set_md_checks m (add_test_result (md_checks m) "explicit_unicode_version" (existsb is_unicode_elem l)), rm, Ok tt)
    | x => x
    end.
  (** xml_parser.py:154-171 parse_document and 491-516 _fast_iter, as
      [read_document], with the results recorded so far. *)
  Definition read_from (r : results) : res (option loaded) :=
    let rules := match dc_rules d with Some l => l | None => [] end in
    match dc_meta d with
    | None => bind (headless_data (dc_data d)) (fun _ => bind (headless_rules rules) (fun _ => Ok None))
    | Some ml =>
        match meta_from r ml with
        | (m, rm, Raise e) => Raise e
        | (m, rm, Ok _) =>
            match process_data force (set_refs (new_lgr (option_map fst db) allow_invalid) rm) (md_checks m) (dc_data d) with
            | (g, r, Raise e) => Raise e
            | (g, r, Ok _) =>
                bind (process_rules (option_map snd db) fuel force rules (before_rules (lg_tags g)) (fresh_read r)) (fun p =>
                Ok (Some (mkLoaded (set_md_checks m (report_tested (rd_results (snd p)) "parse_xml")) g (fst p) (rd_cache (snd p)))))
            end
        end
    end.
  (** etree reads from where the source is, nothing but the end when it has
      been read; ValueError stands for XMLSyntaxError. *)
  Definition from_start {A} (p : xparser) (f : res A) : res A := if xp_start p then f else Raise ValueError.
  (** A named file is opened again each time. *)
  Definition left_at (b : bool) : bool := match src with Named => true | Opened _ => b end.

  (** xml_parser.py:113-135 validate_document: the source is not set back. *)
  Definition validate (p : xparser) : xparser * res answer :=
    match from_start p (Ok tt) with
    | Raise e => (p, Raise e)
    | Ok _ =>
        let r := if conforms then xp_checks p else report_error (xp_checks p) "schema" in
        (mkParser (report_tested r "schema") (left_at (match src with Opened kept => kept | Named => true end)) (xp_lgr p),
         Ok (Errors (negb conforms)))
    end.
  (** xml_parser.py:137-152 unicode_version: only <meta> is looked at.  Without
      LGR there is no metadata (146; TypeError stands for AttributeError). *)
  Definition unicode_version (p : xparser) : xparser * res answer :=
    match from_start p (Ok tt) with
    | Raise e => (p, Raise e)
    | Ok _ =>
        match dc_meta d with
        | None =>
            match xp_lgr p with
            | None => (mkParser (xp_checks p) (left_at false) None, Raise TypeError)
            | Some x => (mkParser (xp_checks p) true None, Ok (UnicodeVersion (md_unicode (ld_meta x))))
            end
        | Some ml =>
            match meta_from (xp_checks p) ml with
            | (m, _, Ok _) => (mkParser (md_checks m) true None, Ok (UnicodeVersion (md_unicode m)))
            | (_, _, Raise e) => (mkParser (xp_checks p) (left_at false) (xp_lgr p), Raise e)
            end
        end
    end.
  (** xml_parser.py:154-171 parse_document. *)
  Definition parse (p : xparser) : xparser * res answer :=
    match from_start p (read_from (xp_checks p)) with
    | Raise e => (mkParser (xp_checks p) (left_at false) (xp_lgr p), Raise e)
    | Ok None => (mkParser (report_tested (xp_checks p) "parse_xml") true None, Ok (Parsed None))
    | Ok (Some x) => (mkParser (md_checks (ld_meta x)) true (Some x), Ok (Parsed (Some x)))
    end.
  Definition perform (p : xparser) (a : ask) : xparser * res answer :=
    match a with Validate => validate p | Version => unicode_version p | Parse => parse p end.
  Fixpoint performs (p : xparser) (l : list ask) : xparser * res (list answer) :=
    match l with
    | [] => (p, Ok [])
    | a :: l' =>
        match perform p a with
        | (p1, Raise e) => (p1, Raise e)
        | (p1, Ok x) => let '(p2, y) := performs p1 l' in (p2, bind y (fun xs => Ok (x :: xs)))
        end
    end.
End Parser.

(** heuristic_parser.py:19-27 and parser.py:20-36, for a document found to be XML;
    [hp_found]: whether the parser has been found. *)
Record hparser := mkHeuristic { hp_db : option database; hp_found : bool; hp_lgr : option loaded }.
Definition new_heuristic : hparser := mkHeuristic None false None.
(** parser.py:39-48, the setter of unicode_database. *)
Definition heuristic_database (u : database) (p : hparser) : hparser :=
  mkHeuristic (Some u) (hp_found p) (option_map (give_database u) (hp_lgr p)).
(** heuristic_parser.py:41-50, 60-62 and 99-107 and parser.py:68-87: the parser
    found is not given the database. *)
Definition heuristic_parse (lang_check : cps -> option bool) (dig : N -> bool) (fuel : nat) (allow_invalid force : bool)
  (d : document) (p : hparser) : hparser * res (option loaded) :=
  match read_document lang_check dig None fuel allow_invalid force d with
  | Ok x => (mkHeuristic (hp_db p) true x, Ok x)
  | Raise e => (mkHeuristic (hp_db p) true None, Raise e)
  end.
(** heuristic_parser.py:29-30: nothing to ask before the parser has been found
    (TypeError stands for AttributeError). *)
Definition heuristic_version (lang_check : cps -> option bool) (dig : N -> bool) (force : bool) (d : document) (p : hparser)
  : res answer :=
  if hp_found p then snd (unicode_version lang_check dig force d Named new_parser) else Raise TypeError.
