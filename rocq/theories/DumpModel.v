(** Model of the tools that print a table as an LGR document: LgrDumpTool
    (lgr/tools/utils.py:495-519), used by tools/one_per_line_dump.py,
    rfc4290_dump.py and rfc3743_dump.py, and tools/make_idna_repertoire.py.
    No proofs here.

    The file is its list of lines; what is printed is the document before it is
    laid out as text. *)
From Verif Require Import Base UtilsModel CharModel RefModel LgrModel Rfc7940Model MetaModel ValidateModel SerialModel TableModel.
Open Scope string_scope.
Open Scope list_scope.

(** utils.py:510-519: parse, then serialize.  TypeError stands for
    UnboundLocalError. *)
Definition dump (m : metadata) (x : lgr * ending) : res xml_doc :=
  match x with
  | (g, Done) => Ok (serialize_lgr m g)
  | (_, Failed e) => Raise e
  | (_, Unbound) => Raise TypeError
  end.

(** utils.py:510 and parser.py:20: the parser is made with force and without
    allow_invalid_property.  tools/one_per_line_dump.py:11-15. *)
Definition dump_lines (lines : list cps) : res xml_doc := dump new_metadata (parse_line_doc false lines).
(** tools/rfc4290_dump.py:11-15. *)
Definition dump_4290 (lines : list cps) : res xml_doc := dump new_metadata (parse_4290 true false lines).
(** rfc3743_parser.py:79-81: what the version line sets. *)
Definition table_metadata (t : table_meta) : metadata :=
  mkMeta (option_map (fun p : N * option cps => mkVersion [fst p] (snd p)) (tm_version t)) (tm_date t) [] [] None None
         (md_unicode new_metadata) None [].
(** tools/rfc3743_dump.py:11-15. *)
Definition dump_3743 (enc : cps -> string) (lines : list cps) : res xml_doc :=
  let '(st, o) := parse_3743 enc true false lines in dump (table_metadata (st_meta st)) (st_lgr st, o).

(** tools/make_idna_repertoire.py:50-51: a record of the registry, the texts of
    its code point and of its property. *)
Record idna_record : Type := mkRec { rc_cp : cps; rc_prop : cps }.

(** codepoint.find('-') > 0 *)
Definition has_dash (s : cps) : bool := match s with [] => false | _ :: r => memb N.eqb 45 r && negb (N.eqb (hd 0 s) 45) end.

(** tools/make_idna_repertoire.py:53-62.  A list of another length than two
    cannot be unpacked: ValueError. *)
Definition idna_one (g : lgr) (r : idna_record) : lgr * res unit :=
  if negb (memb cps_eqb (rc_prop r) [txt "PVALID"; txt "CONTEXTO"; txt "CONTEXTJ"]) then (g, Ok tt)
  else if has_dash (rc_cp r) then
    match mapM_res parse_cp (split_on 45 (rc_cp r)) with
    | Ok [first; last_] => lgr_add_range g first last_ None [] [] None None None false false
    | Ok _ => (g, Raise ValueError)
    | Raise e => (g, Raise e)
    end
  else match parse_cp (rc_cp r) with
       | Ok x => lgr_add_cp g [x] None [] [] None None None false false
       | Raise e => (g, Raise e)
       end.
Fixpoint idna_all (g : lgr) (l : list idna_record) : lgr * res unit :=
  match l with
  | [] => (g, Ok tt)
  | r :: l' => match idna_one g r with
               | (g', Ok _) => idna_all g' l'
               | x => x
               end
  end.
(** tools/make_idna_repertoire.py:23-65: fetching the registry and choosing its
    records is outside of the model. *)
Definition idna_repertoire (l : list idna_record) : res xml_doc :=
  match idna_all (new_lgr None false) l with
  | (g, Ok _) => Ok (serialize_lgr new_metadata g)
  | (_, Raise e) => Raise e
  end.
