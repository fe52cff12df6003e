(** Model of tools/lgr_populate_variants.py and tools/xml_dump.py: a document
    read, completed or not, and printed.  No proofs here.

    Simplifications: the RelaxNG validator is an argument (its answer for the
    document), as is the Unicode database; what is printed is the document before
    it is laid out as text; the log is dropped. *)
From Verif Require Import Base CharModel LgrModel ClassModel RuleModel MetaModel SerialModel RulesXmlModel DocModel PopulateModel.
Open Scope string_scope.
Open Scope list_scope.

Section Tools.
  (** rfc5646.check, \d *)
  Variable lang_check : cps -> option bool.
  Variable dig : N -> bool.
  Variable fuel : nat.

  (** lgr/tools/utils.py:351-364 parse_lgr, with the defaults of parser.py:20:
      force, and not allow_invalid_property.  [rng] is None without schema, and
      the answer of the validator with one. *)
  Definition parse_lgr (rng : option bool) (db : option database) (d : document) : res (option loaded) :=
    match rng with
    | Some false => Ok None
    | _ => read_document lang_check dig db fuel false true d
    end.

  (** tools/lgr_populate_variants.py:25-32; nothing is printed when there is no
      LGR.  core.py:1507-1512 populate_variants. *)
  Definition populate_tool (rng : option bool) (db : option database) (d : document) : res (option document) :=
    bind (parse_lgr rng db d) (fun o =>
    match o with
    | None => Ok None
    | Some x => match populate (ld_lgr x) with
                | (g, Ok _) => Ok (Some (write_document (mkLoaded (ld_meta x) g (ld_rules x) (ld_cache x))))
                | (_, Raise e) => Raise e
                end
    end).

  (** The arguments of a tool: [None] when the option was not declared, which is
      an AttributeError (here TypeError) when it is read. *)
  Definition attribute {A} (a : option A) : res A := match a with Some x => Ok x | None => Raise TypeError end.
  (** lgr/tools/utils.py:423-430 get_unidb; [register] gives the database of the
      libraries. *)
  Definition get_unidb (register : string -> database) (libs : option (option string)) : res (option database) :=
    bind (attribute libs) (fun l => Ok (option_map register l)).
  (** tools/xml_dump.py:13-39 with lgr/tools/utils.py:417-421: of the options only
      those for the log, the schema and the files are declared (17-21). *)
  Definition dump_tool (register : string -> database) (rng : option bool) (d : document) : res (option document) :=
    bind (get_unidb register None) (fun db =>
    bind (parse_lgr rng db d) (fun o => Ok (option_map write_document o))).
End Tools.
