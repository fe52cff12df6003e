(** Model of tools/lgr_harmonize: two LGRs read, harmonized and written to files
    of a directory.  No proofs here.

    Simplifications: the files given exist; the schema and the database are
    arguments; what is written is the document before it is laid out as text; the
    log is dropped. *)
From Coq Require Import Ascii.
From Verif Require Import Base UtilsModel CharModel LgrModel ClassModel RuleModel MetaModel SerialModel RulesXmlModel DocModel PopulateModel HarmonizeModel PopToolModel.
Open Scope string_scope.
Open Scope list_scope.

(** parser.py:25-28: the name of a file without its directories. *)
Fixpoint base_name (path : string) : string :=
  match path with
  | "" => ""
  | String c rest =>
      let b := base_name rest in
      if String.eqb b rest then (if Ascii.eqb c "/"%char then b else String c b) else b
  end.
(** What precedes a final ".xml": str.endswith and [:-4]. *)
Fixpoint without_xml (n : string) : option string :=
  if String.eqb n ".xml" then Some ""
  else match n with "" => None | String c n' => option_map (String c) (without_xml n') end.
(** tools/lgr_harmonize:41-44 *)
Definition output_name (n : string) : string :=
  match without_xml n with
  | Some p => (p ++ "_harmonized.xml")%string
  | None => (n ++ "_harmonized")%string
  end.

(** harmonize.py:38-40 on the metadata: [comment or '' + ' - Harmonized']. *)
Definition harmonized_version (v : version) : version :=
  mkVersion (ver_value v) (match ver_comment v with Some (c :: t) => Some (c :: t) | _ => Some (txt " - Harmonized") end).
Definition harmonized_metadata (m : metadata) : metadata :=
  mkMeta (option_map harmonized_version (md_version m)) (md_date m) (md_languages m) (md_scopes m) (md_start m) (md_end m) (md_unicode m) (md_description m) (md_checks m).
(** A copy keeps classes, rules and actions. *)
Definition harmonized_loaded (x : loaded) (g : lgr) : loaded := mkLoaded (harmonized_metadata (ld_meta x)) g (ld_rules x) [].

Section Tool.
  (** rfc5646.check, \d *)
  Variable lang_check : cps -> option bool.
  Variable dig : N -> bool.
  Variable fuel : nat.
  (** Order in which the elements of a set come. *)
  Variable order : list cps -> list cps.
  (** The files, by their paths. *)
  Variable library : string -> document.
  Variable schema : option (document -> bool).
  Variable db : option database.

  Definition parse (path : string) : res (option loaded) :=
    parse_lgr lang_check dig fuel (option_map (fun valid => valid (library path)) schema) db (library path).

  (** harmonize.py:32-36, reached by tools/lgr_harmonize:37 with None for an LGR
      that could not be read: TypeError stands for AttributeError. *)
  Definition harmonize_parsed (p1 p2 root : option loaded) : res (loaded * loaded * (list cps * list cps)) :=
    match p1, p2 with
    | None, _ => Raise TypeError
    | Some x1, None => bind (finished (lgr_expand_ranges (lgr_copy (ld_lgr x1)))) (fun _ => Raise TypeError)
    | Some x1, Some x2 =>
        bind (harmonize order (ld_lgr x1) (ld_lgr x2) (option_map ld_lgr root)) (fun r =>
        let '(h1, h2, logs) := r in Ok (harmonized_loaded x1 h1, harmonized_loaded x2 h2, logs))
    end.
  (** tools/lgr_harmonize:33-35; an empty option is none. *)
  Definition parse_root (root : option string) : res (option loaded) :=
    match root with
    | None => Ok None
    | Some z => if String.eqb z "" then Ok None else parse z
    end.
  (** tools/lgr_harmonize:49-51 *)
  Definition review_line (c : cps) : cps := txt "- " ++ format_cp c ++ txt " (" ++ c ++ txt ")".

  (** tools/lgr_harmonize:30-56.  The directory, and the lines printed. *)
  Definition harmonize_tool (first second : string) (root : option string) (dir : dict string document) : dict string document * res (list cps) :=
    match bind (parse first) (fun p1 => bind (parse second) (fun p2 => bind (parse_root root) (fun z => harmonize_parsed p1 p2 z))) with
    | Raise e => (dir, Raise e)
    | Ok (h1, h2, (log1, log2)) =>
        (dset String.eqb (output_name (base_name second)) (write_document h2)
           (dset String.eqb (output_name (base_name first)) (write_document h1) dir),
         Ok ([txt "Manual review needed for code points from first LGR:"] ++ map review_line (order log1) ++
             [txt "Manual review needed for code points from second LGR:"] ++ map review_line (order log2)))
    end.
End Tool.
