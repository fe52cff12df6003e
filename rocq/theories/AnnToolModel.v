(** The annotation tool and the merge tool: tools/lgr_annotate.py,
    tools/lgr_merge_set.py and process_set of lgr/tools/utils.py, with the
    files they read and write. *)
From Verif Require Import Base CharModel ActionModel LabelModel UtilsModel CollisionModel AnnotateModel CliModel.
Open Scope N_scope.
Open Scope string_scope.
Open Scope list_scope.

(** The text files, as their lines. *)
Definition files := dict string (list cps).

(** What argparse gives to lgr_annotate.py (utils.py:442-448, lgr_annotate.py:20-26);
    "" for an option that is absent: the code only tests for truth. *)
Record ann_args : Type := mkAnn {
  an_lgrs : list string; an_script : string; an_set_labels : string; an_labels : string; an_output : string
}.
(** Messages of the log after which nothing is done: utils.py:453, 457, 484, 489-490. *)
Inductive problem := NoScriptGiven | NoSetLabels | ScriptNotFound | NotReadable.
(** What process_set leaves in the parser object. *)
Inductive prepared : Type :=
| ForOne (g : tool_lgr)
| ForSet (merged script : tool_lgr) (set_lines : list cps).

(** io.open(name, 'r') on a file that does not exist (FileNotFoundError). *)
Definition open_read (st : files) (name : string) : res (list cps) :=
  match dget String.eqb name st with Some l => Ok l | None => Raise (KeyErrorStr name) end.

Section Tools.
  Variable decode : cps -> res cps.
  (** XMLParser(file).parse_document: no LGR in a document without metadata. *)
  Variable read_file : string -> res (option tool_lgr).
  (** validate_document with the RNG schema given on the command line. *)
  Variable schema : option (string -> bool).
  (** merge_set.py merge_lgr_set. *)
  Variable merge_set : list tool_lgr -> string -> res tool_lgr.
  (** Index and variants of a label in the merged LGR. *)
  Variable index : tool_lgr -> cps -> res cps.
  Variable listing : tool_lgr -> cps -> list cps -> list (cps * option string) * res unit.
  (** The text of an output line. *)
  Variable render : note -> cps.

  (** utils.py:351-363 parse_lgr. *)
  Definition read_checked (f : string) : res (option tool_lgr) :=
    if match schema with Some ok => negb (ok f) | None => false end then Ok None else read_file f.
  (** utils.py:249-267: the answer of the schema is only logged. *)
  Fixpoint read_members (l : list string) : res (option (list tool_lgr)) :=
    match l with
    | [] => Ok (Some [])
    | f :: l' =>
        bind (read_file f) (fun d =>
        match d with
        | None => Ok None
        | Some x => bind (read_members l') (fun r => Ok (option_map (cons x) r))
        end)
    end.
  (** utils.py:239-276 merge_lgrs with the two names assigned from its result,
      None being no pair (460, lgr_merge_set.py:35). *)
  Definition merged_pair (l : list string) (name : string) : res (tool_lgr * list tool_lgr) :=
    bind (read_members l) (fun s =>
    match s with
    | None => Raise TypeError
    | Some gs => bind (merge_set gs (if String.eqb name "" then "merged-lgr-set" else name)) (fun m => Ok (m, gs))
    end).
  (** utils.py:450-493 process_set; an LGR is never false, so 463-465 is not reached. *)
  Definition process_set (optional : bool) (st : files) (a : ann_args) : res (problem + prepared) :=
    match an_lgrs a with
    | [] => Raise IndexError
    | [f] => bind (read_checked f) (fun d => Ok (match d with None => inl NotReadable | Some g => inr (ForOne g) end))
    | l =>
        if String.eqb (an_script a) "" then Ok (inl NoScriptGiven)
        else if negb optional && String.eqb (an_set_labels a) "" then Ok (inl NoSetLabels)
        else bind (merged_pair l "") (fun mg =>
             bind (if String.eqb (an_set_labels a) "" then Ok [] else open_read st (an_set_labels a)) (fun set_lines =>
             Ok (match choose_script (an_script a) (snd mg) None with
                 | None => inl ScriptNotFound
                 | Some s => inr (ForSet (fst mg) s set_lines)
                 end)))
    end.

  (** lgr_annotate.py:37-42: the lines yielded for the labels read. *)
  Definition notes_for (p : prepared) (lines : list cps) : list note * res unit :=
    match p with
    | ForOne g => annotate decode (tl_rules g) (tl_rep g) (tl_actions g) lines
    | ForSet m s set_lines =>
        lgr_set_annotate decode (tl_rules m) (tl_rules s) (tl_rep m) (tl_rep s) (tl_actions m) (tl_actions s)
          (index m) (listing m) set_lines lines
    end.
  (** lgr_annotate.py:35-42.  Opening the output empties it before the labels
      are read; what was yielded before an exception is in the file, which the
      with statement closes.  When both are the same file and an LGR set is
      given, what is said of the set is supposed to stay in the buffer until
      the labels are read. *)
  Definition write_notes (st : files) (a : ann_args) (p : prepared) : files * res unit :=
    match open_read st (an_labels a) with
    | Raise e => (st, Raise e)
    | Ok _ =>
        let st1 := dset String.eqb (an_output a) [] st in
        match open_read st1 (an_labels a) with
        | Raise e => (st1, Raise e)
        | Ok lines => let '(ns, o) := notes_for p lines in (dset String.eqb (an_output a) (map render ns) st1, o)
        end
    end.
  (** lgr_annotate.py:19-42 main: the files afterwards, the message. *)
  Definition annotate_tool (st : files) (a : ann_args) : files * res (option problem) :=
    match process_set true st a with
    | Raise e => (st, Raise e)
    | Ok (inl m) => (st, Ok (Some m))
    | Ok (inr p) => let '(st', o) := write_notes st a p in (st', bind o (fun _ => Ok None))
    end.

  (** ** lgr_merge_set.py *)
  (** str of bytes (line 38: print of what serialize_lgr_xml returns for the
      default encoding, xml_serializer.py:40-57). *)
  Definition hex_digit (n : N) : N := (if n <? 10 then 48 + n else 87 + n)%N.
  Definition byte_repr (quote b : N) : cps :=
    if ((b =? 92) || (b =? quote))%N%bool then [92; b]%N
    else if (b =? 9)%N then [92; 116]
    else if (b =? 10)%N then [92; 110]
    else if (b =? 13)%N then [92; 114]
    else if ((b <? 32) || (127 <=? b))%N%bool then [92; 120; hex_digit (b / 16); hex_digit (b mod 16)]%N
    else [b].
  Definition bytes_repr (l : list N) : cps :=
    let quote := if memb N.eqb 39 l && negb (memb N.eqb 34 l) then 34 else 39 in
    98 :: quote :: flat_map (byte_repr quote) l ++ [quote].

  (** etree.tostring of the element tree, in UTF-8. *)
  Variable to_bytes : tool_lgr -> list N.
  Inductive merge_answer : Type := OnlyOne | Printed_ (text : cps).
  (** lgr_merge_set.py:16-38 main; print adds the end of line. *)
  Definition merge_tool (l : list string) (name : string) : res merge_answer :=
    match l with
    | [_] => Ok OnlyOne
    | _ => bind (merged_pair l name) (fun mg => Ok (Printed_ (bytes_repr (to_bytes (fst mg)) ++ [10])))
    end.
End Tools.
