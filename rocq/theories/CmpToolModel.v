(** The comparison tool: tools/lgr_compare.py, and lgr/tools/utils.py merge_lgrs. *)
From Verif Require Import Base CharModel MetaModel LgrModel CompareModel SerialModel.
Open Scope string_scope.
Open Scope list_scope.

(** lgr_compare.py:29-31, the choices of the argument. *)
Inductive deed := Intersect | Union | Diff.

(** What the user sees: messages of the log when nothing is printed, an LGR in
    XML (the metadata and the code points, and the texts of the classes, of the
    rules and of the actions, xml_serializer.py:19-39), or the text of a
    comparison. *)
Inductive answer : Type :=
| Said (messages : list string)
| PrintedLgr (x : xml_doc) (classes rules actions : list string)
| PrintedText (t : string).

Section Tool.
  (** XMLParser(file).parse_document: no LGR in a document without metadata. *)
  Variable read_file : string -> res (option doc).
  (** validate_document with the RNG schema given on the command line. *)
  Variable schema : option (string -> bool).
  (** merge_set.py merge_lgr_set, diff.py diff_lgrs and diff_lgr_sets. *)
  Variable merge_set : list doc -> string -> res doc.
  Variable diff : doc -> doc -> bool -> res string.
  Variable diff_sets : doc -> doc -> list doc -> list doc -> bool -> res string.
  Variable o : orders.
  Variable today : cps.

  Definition refused (f : string) : bool := match schema with Some ok => negb (ok f) | None => false end.

  (** lgr/tools/utils.py:351-363 parse_lgr. *)
  Definition parse_file (f : string) : res (option doc) := if refused f then Ok None else read_file f.

  (** lgr/tools/utils.py:249-267: the answer of the schema is only logged. *)
  Fixpoint read_set (l : list string) : res (option (list doc)) :=
    match l with
    | [] => Ok (Some [])
    | f :: l' =>
        bind (read_file f) (fun d =>
        match d with
        | None => Ok None
        | Some x => bind (read_set l') (fun r => Ok (option_map (cons x) r))
        end)
    end.
  (** lgr/tools/utils.py:269-270 *)
  Definition set_name (name : option string) : string :=
    match name with Some n => if String.eqb n "" then "merged-lgr-set" else n | None => "merged-lgr-set" end.
  (** lgr/tools/utils.py:239-276 merge_lgrs, without Unicode database. *)
  Definition merge_lgrs (l : list string) (name : option string) : res (option (doc * list doc)) :=
    bind (read_set l) (fun s =>
    match s with
    | None => Ok None
    | Some ds => bind (merge_set ds (set_name name)) (fun m => Ok (Some (m, ds)))
    end).
  (** lgr_compare.py:51, 55: two names are assigned from the result; None cannot
      be unpacked. *)
  Definition unpack (x : option (doc * list doc)) : res (doc * list doc) :=
    match x with Some p => Ok p | None => Raise TypeError end.

  (** lgr_compare.py:78 *)
  Definition printed (d : doc) : answer :=
    PrintedLgr (serialize_lgr (doc_meta d) (doc_lgr d)) (doc_classes_xml d) (doc_rules_xml d) (doc_actions_xml d).

  Definition no_file (which : string) : answer :=
    Said [("Error while parsing " ++ which ++ " LGR file.")%string; "Please check compliance with RNG."].
  (** lgr_compare.py:60-80.  Union and intersection spell out the ranges of the
      LGRs they are given, which are not used afterwards. *)
  Definition compare_two (a : deed) (generate : bool) (f1 f2 : string) : res answer :=
    bind (parse_file f1) (fun p1 =>
    bind (parse_file f2) (fun p2 =>
    match p1, p2 with
    | None, _ => Ok (no_file "first")
    | _, None => Ok (no_file "second")
    | Some d1, Some d2 =>
        match a with
        | Intersect => bind (snd (intersect_lgrs o today d1 d2)) (fun d => Ok (printed d))
        | Union => bind (snd (union_lgrs o today d1 d2)) (fun d => Ok (printed d))
        | Diff => bind (diff d1 d2 generate) (fun t => Ok (PrintedText t))
        end
    end)).
  (** lgr_compare.py:46-59: show_same keeps its default. *)
  Definition compare_sets (a : deed) (l1 l2 : list string) (n1 n2 : option string) : res answer :=
    match a with
    | Intersect | Union => Ok (Said ["Cannot perform intersection or union with LGR sets"])
    | Diff =>
        bind (bind (merge_lgrs l1 n1) unpack) (fun m1 =>
        bind (bind (merge_lgrs l2 n2) unpack) (fun m2 =>
        bind (diff_sets (fst m1) (fst m2) (snd m1) (snd m2) true) (fun t => Ok (PrintedText t))))
    end.
  (** lgr_compare.py:19-80 main; argparse requires both lists to have an element
      (the IndexError of args.first[0] cannot happen). *)
  Definition compare_tool (a : deed) (generate : bool) (l1 l2 : list string) (n1 n2 : option string) : res answer :=
    match l1, l2 with
    | [f1], [f2] => compare_two a generate f1 f2
    | [_], _ :: _ :: _ | _ :: _ :: _, [_] => Ok (Said ["Cannot compare LGR with LGR sets"])
    | _ :: _ :: _, _ => compare_sets a l1 l2 n1 n2
    | _, _ => Raise IndexError
    end.
End Tool.
