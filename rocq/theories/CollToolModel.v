(** Model of the command line tool tools/lgr_collision.py.  No proofs here.

    A line of output is a value that holds what the line shows.  Not modelled:
    reading the LGR (C76), the log.  A line of a file or of the standard input is
    its code points. *)
From Verif Require Import Base UtilsModel CharModel ActionModel LabelModel.
Open Scope string_scope.
Open Scope list_scope.

(** ** Options *)

(** argparse.ArgumentParser.add_argument: an option that is there already is
    refused (ArgumentError, here ValueError).  An argument is its option strings,
    none for a positional one. *)
Fixpoint add_arguments (known : list string) (l : list (list string)) : res (list string) :=
  match l with
  | [] => Ok known
  | a :: l' => if existsb (fun s => memb String.eqb s known) a then Raise ValueError else add_arguments (known ++ a) l'
  end.
(** Every parser starts with the option for help. *)
Definition declare (l : list (list string)) : res (list string) := add_arguments ["-h"; "--help"] l.
(** lgr/tools/utils.py:373-394 add_common_args, with add_logging_args,
    add_libs_arg and add_rng_arg. *)
Definition logging_args : list (list string) := [["-v"; "--verbose"]; ["-q"; "--quiet"]].
Definition libs_arg : list (list string) := [["-l"; "--libs"]].
Definition rng_arg : list (list string) := [["-r"; "--rng"]].
Definition common_args : list (list string) := logging_args ++ libs_arg ++ rng_arg.
(** utils.py:442-448 add_xml_set_args; 396-397 add_xml_meta. *)
Definition xml_set_args : list (list string) := [["-x"; "--lgr-xml"]; ["-s"; "--lgr-script"]; ["-f"; "--set-labels"]].
Definition xml_meta : list (list string) := [[]].
(** lgr_collision.py:35-43. *)
Definition collision_args : list (list string) :=
  common_args ++ [["-g"; "--generate"]; ["-l"; "--libs"]; ["-s"; "--set"]] ++ xml_meta.
(** The arguments of the other tools: lgr_annotate.py:21-26, lgr_cli.py:78-90,
    lgr_compare.py:21-35, lgr_diff_collisions.py:21-33,
    lgr_idn_table_review.py:27-31, lgr_merge_set.py:18-22,
    lgr_populate_variants.py:18-19, lgr_validate.py:101-104,
    make_idna_repertoire.py:72-73, utils.py:502-505 (the three table dumps),
    rfc7940_validate.py:18-23, xml_dump.py:17-21, lgr_harmonize:21-25. *)
Definition other_tools : list (string * list (list string)) :=
  [("lgr_annotate", common_args ++ [["-o"; "--output"]] ++ xml_set_args ++ [[]]);
   ("lgr_cli", common_args ++ [["-m"; "--msr"]; ["-u"; "--unicode"]; ["-t"; "--test"]; ["-c"; "--check"]; ["-i"; "--invalid"]] ++ xml_meta ++ [[]]);
   ("lgr_compare", logging_args ++ rng_arg ++ [["-1"; "--first"]; ["-2"; "--second"]; []; ["-g"; "--generate"]; ["-n1"; "--name-first"]; ["-n2"; "--name-second"]]);
   ("lgr_diff_collisions", common_args ++ [["-1"; "--first"]; ["-2"; "--second"]; ["-s"; "--set"]; ["-g"; "--generate"]; ["-n"; "--no-rules"]]);
   ("lgr_idn_table_review", common_args ++ [["-o"; "--output"]; ["-t"; "--idn-table"]; ["-x"; "--reference-lgr"]]);
   ("lgr_merge_set", logging_args ++ libs_arg ++ rng_arg ++ [["-n"; "--name"]; ["-s"; "--lgr-set"]]);
   ("lgr_populate_variants", common_args ++ [["-x"; "--lgr-xml"]]);
   ("lgr_validate", common_args ++ [["-g"; "--variants"]] ++ xml_set_args);
   ("make_idna_repertoire", [["-v"; "--verbose"]; []]);
   ("one_per_line_dump", logging_args ++ [["-o"; "--output"]; []]);
   ("rfc3743_dump", logging_args ++ [["-o"; "--output"]; []]);
   ("rfc4290_dump", logging_args ++ [["-o"; "--output"]; []]);
   ("rfc7940_validate", common_args ++ [["-u"; "--unicode"]; ["-t"; "--test"]] ++ xml_meta);
   ("xml_dump", logging_args ++ rng_arg ++ [["-o"; "--output"]] ++ xml_meta);
   ("lgr_harmonize", common_args ++ [["-1"; "--first"]; ["-2"; "--second"]; ["-z"; "--root-zone"]; []])].

(** ** The work of the tool *)

Inductive kline : Type :=
| KCheck (label : cps)                                          (* 69 *)
| KCollision (label ref : cps)                                  (* 79 *)
| KNone (label : cps)                                           (* 84 *)
| KBlock (v : cps) (types : dispset) (disp : option string).    (* 28 *)

Section Tool.
  Variable rm : rule_oracle.
  Variable r : repertoire.
  Variable acts : list action.
  Variable script : N -> string.
  (** Whether the LGR has a Unicode database. *)
  Variable db : bool.

  (** lgr_collision.py:18-19; max_recursion is 0. *)
  Definition tool_index (label : cps) : res cps := index_label rm r 0 true label.

  (** lgr_collision.py:55-65. *)
  Fixpoint reference_indexes (lines : list cps) (t : list (cps * cps)) : res (list (cps * cps)) :=
    match lines with
    | [] => Ok t
    | x :: l =>
        match tool_index (strip x) with
        | Ok i => reference_indexes l (dset cps_eqb i (strip x) t)
        | Raise (NotInLGR _) => reference_indexes l t
        | Raise e => Raise e
        end
    end.

  (** lgr_collision.py:22-30 find_variants_to_block. *)
  Definition find_variants_to_block (ref label : cps) : list kline * res unit :=
    match label_variants rm r script ref false with
    | None => ([], Raise OutOfFuel)
    | Some vs =>
        let '(items, o) := compute_label_disposition rm r acts script db label false false false [] in
        (map (fun z => KBlock (ls_cp z) (ls_types z) (ls_disp z))
             (filter (fun z => memb cps_eqb (ls_cp z) (map vl_cp vs)) items), o)
    end.

  (** lgr_collision.py:68-84: one label. *)
  Definition check_one (generate : bool) (t : list (cps * cps)) (label : cps) : list kline * res unit :=
    match tool_index label with
    | Raise e => ([KCheck label], Raise e)
    | Ok i =>
        match dget cps_eqb i t with
        | Some ref =>
            let '(bs, o) := if generate then find_variants_to_block ref label else ([], Ok tt) in
            (KCheck label :: KCollision label ref :: bs, o)
        | None => ([KCheck label; KNone label], Ok tt)
        end
    end.
  Fixpoint check_labels (generate : bool) (t : list (cps * cps)) (l : list cps) : list kline * res unit :=
    match l with
    | [] => ([], Ok tt)
    | x :: l' =>
        match check_one generate t x with
        | (ks, Raise e) => (ks, Raise e)
        | (ks, Ok _) => let '(ks', o) := check_labels generate t l' in (ks ++ ks', o)
        end
    end.
  (** lgr_collision.py:55-84. *)
  Definition collision_tool (generate : bool) (refs labels : list cps) : list kline * res unit :=
    match reference_indexes refs [] with
    | Raise e => ([], Raise e)
    | Ok t => check_labels generate t labels
    end.
End Tool.
