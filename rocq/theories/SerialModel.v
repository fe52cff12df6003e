(** Model of the XML writer and reader (lgr/parser/xml_serializer.py,
    lgr/parser/xml_parser.py) for the <meta> and <data> sections.  No proofs here.

    XML itself (escaping, name spaces, CDATA, lxml) is not modelled: a document
    is the tree of elements that the writer builds and the reader walks through,
    with attribute values and texts as they are passed to or obtained from lxml.
    Lengths of white space, and characters lxml refuses, are out of scope.  The
    <rules> section carries the texts of rules, classes and actions unchanged
    (xml_serializer.py:173-185, xml_parser.py:330-356) and is left out here.

    An element whose text is empty is read back with the text None; version,
    scope and reference values that are None are represented by the empty text.
    Code point attributes written with a minus sign, for which int() gives a
    negative number, are rejected here with ValueError. *)
From Verif Require Import Base UtilsModel RefModel CharModel LgrModel Rfc7940Model MetaModel ValidateModel.
Open Scope string_scope.
Open Scope list_scope.

(** ** Elements *)

(** Attributes shared by <char> and <range>. *)
Record attrs : Type := mkAttrs {
  at_comment : option string;
  at_when : option string;
  at_not_when : option string;
  at_ref : option string;
  at_tag : option string
}.

(** <var>. *)
Record var_elem : Type := mkVarElem {
  ve_cp : cps;
  ve_type : option string;
  ve_when : option string;
  ve_not_when : option string;
  ve_comment : option string;
  ve_ref : option string
}.

(** Children of <data>; [DOther] is an element with another name. *)
Inductive data_elem : Type :=
| DChar (cp : cps) (a : attrs) (vars : list var_elem)
| DRange (first last : cps) (a : attrs) (vars : list var_elem)
| DOther.

(** <reference>; a missing id attribute lets the reader choose one. *)
Record ref_elem : Type := mkRefElem { re_id : option string; re_comment : option string; re_value : string }.

(** Children of <meta>; [None] is an empty text. *)
Inductive meta_elem : Type :=
| MVersion (text : option cps) (comment : option cps)
| MDateE (text : option cps)
| MStartE (text : option cps)
| MEndE (text : option cps)
| MUnicodeE (text : option cps)
| MLanguageE (text : option cps)
| MScopeE (text : option cps) (type_ : option cps)
| MDescriptionE (text : option cps) (type_ : option cps)
| MReferencesE (l : list ref_elem)
| MOtherE.

Record xml_doc : Type := mkXml { x_meta : list meta_elem; x_data : list data_elem }.

(** Setting the text of an element and reading it back. *)
Definition text_node (s : cps) : option cps := match s with [] => None | _ => Some s end.
(** xml_serializer.py:102-106: a description of any type but text/plain is put in
    a CDATA section, which lxml reads back as a text even when empty.  Simplified:
    a text containing "]]>", which lxml refuses to put there, is written. *)
Definition description_node (d : description) : option cps :=
  match desc_type d with
  | Some t => if cps_eqb t (txt "text/plain") then text_node (desc_value d) else Some (desc_value d)
  | None => text_node (desc_value d)
  end.

(** ** Writing *)

(** ' '.join(l). *)
Definition join_words (l : list string) : string := untxt (join [32] (map txt l)).

(** xml_serializer.py:139-142, 164-166: the attribute is left out for an empty list. *)
Definition words_attr (l : list string) : option string :=
  match l with [] => None | _ => Some (join_words l) end.

(** xml_serializer.py:133-142. *)
Definition attrs_of (ch : char) : attrs :=
  mkAttrs (ch_comment ch) (ch_when ch) (ch_not_when ch) (words_attr (ch_refs ch)) (words_attr (ch_tags ch)).

(** xml_serializer.py:153-170. *)
Definition var_elem_of (v : variant) : var_elem :=
  mkVarElem (format_cp_attr (v_cp v)) (v_type v) (v_when v) (v_not_when v) (v_comment v) (words_attr (v_refs v)).

(** xml_serializer.py:143-170. *)
Definition data_elem_of (ch : char) : data_elem :=
  let vs := map var_elem_of (get_variants ch) in
  match ch_kind ch with
  | KRange f l => DRange (cp_to_str f) (cp_to_str l) (attrs_of ch) vs
  | _ => DChar (format_cp_attr (ch_cp ch)) (attrs_of ch) vs
  end.

(** xml_serializer.py:125-170 _serialize_data. *)
Definition serialize_data (g : lgr) : list data_elem := map data_elem_of (rep_iter (lg_rep g)).

Definition opt_elem (f : option cps -> meta_elem) (o : option cps) : list meta_elem :=
  match o with Some s => [f (text_node s)] | None => [] end.

(** xml_serializer.py:108-122: references; an empty comment is left out. *)
Definition ref_elem_of (p : string * reference) : ref_elem :=
  mkRefElem (Some (fst p))
            (match ref_comment (snd p) with Some "" => None | c => c end)
            (ref_value (snd p)).

(** xml_serializer.py:60-122 _serialize_meta. *)
Definition serialize_meta (m : metadata) (refs : refman) : list meta_elem :=
  match md_version m with
  | Some v => [MVersion (text_node (ver_value v)) (ver_comment v)]
  | None => []
  end
  ++ opt_elem MDateE (md_date m) ++ opt_elem MStartE (md_start m) ++ opt_elem MEndE (md_end m)
  ++ opt_elem MUnicodeE (md_unicode m)
  ++ map (fun l => MLanguageE (text_node l)) (md_languages m)
  ++ map (fun s => MScopeE (text_node (sc_value s)) (sc_type s)) (md_scopes m)
  ++ match md_description m with
     | Some d => [MDescriptionE (description_node d) (desc_type d)]
     | None => []
     end
  ++ match rm_refs refs with [] => [] | l => [MReferencesE (map ref_elem_of l)] end.

(** xml_serializer.py:19-39 serialize_lgr. *)
Definition serialize_lgr (m : metadata) (g : lgr) : xml_doc :=
  mkXml (serialize_meta m (lg_refs g)) (serialize_data g).

(** ** Reading *)

(** xml_parser.py:546-567 string_to_list, applied to get(name, ''). *)
Definition attr_words (o : option string) : list string :=
  match o with Some s => map untxt (string_to_list (txt s)) | None => [] end.

(** int(c, 16), as a code point. *)
Definition cp_of_int (z : Z) : res N := if (z <? 0)%Z then Raise ValueError else Ok (Z.to_N z).
Definition parse_cp (s : cps) : res N := bind (py_int 16 s) cp_of_int.
(** [int(c, 16) for c in s.split()]. *)
Definition parse_cps (s : cps) : res cps := mapM_res parse_cp (split_ws s).

(** xml_parser.py:270-274, 298-305, 318-325: outcome of adding an element; an
    LGRException is reported and raised again unless [force]. *)
Definition attempt (force : bool) (r : results) (p : lgr * res unit) : lgr * results * res unit :=
  let '(g, x) := p in
  match x with
  | Ok _ => (g, r, Ok tt)
  | Raise e =>
      if is_lgr_exception e then
        let r' := report_error (report_error r "parse_xml") "codepoint_valid" in
        if force then (g, r', Ok tt) else (g, r', Raise e)
      else (g, r, Raise e)
  end.

(** xml_parser.py:276-305: variants of a <char>. *)
Fixpoint process_vars (force : bool) (g : lgr) (r : results) (c : cps) (vs : list var_elem)
  : lgr * results * res unit :=
  match vs with
  | [] => (g, r, Ok tt)
  | v :: vs' =>
      match parse_cps (ve_cp v) with
      | Raise e => (g, r, Raise e)
      | Ok vc =>
          match attempt force r (lgr_add_variant g c vc (ve_type v) (ve_when v) (ve_not_when v) (ve_comment v)
                                   (attr_words (ve_ref v)) None false force) with
          | (g1, r1, Raise e) => (g1, r1, Raise e)
          | (g1, r1, Ok _) => process_vars force g1 r1 c vs'
          end
      end
  end.

(** xml_parser.py:254-261: order of the cp attributes. *)
Definition check_order (previous c : cps) (r : results) : results :=
  if cps_leb c previous then
    if cps_eqb (firstn (length c) previous) c
    then report_error r "char_strict_ascending_order"
    else report_error r "char_ascending_order"
  else r.

(** xml_parser.py:231-328 _process_data, the loop. *)
Fixpoint process_data_loop (force : bool) (g : lgr) (r : results) (previous : cps) (l : list data_elem)
  : lgr * results * res unit :=
  match l with
  | [] => (g, r, Ok tt)
  | DOther :: l' => process_data_loop force g r previous l'
  | DChar cp a vs :: l' =>
      match parse_cps cp with
      | Raise e => (g, r, Raise e)
      | Ok c =>
          match attempt force (check_order previous c r)
                  (lgr_add_cp g c (at_comment a) (attr_words (at_ref a)) (attr_words (at_tag a))
                              (at_when a) (at_not_when a) None false force) with
          | (g1, r1, Raise e) => (g1, r1, Raise e)
          | (g1, r1, Ok _) =>
              match process_vars force g1 r1 c vs with
              | (g2, r2, Raise e) => (g2, r2, Raise e)
              | (g2, r2, Ok _) => process_data_loop force g2 r2 c l'
              end
          end
      end
  | DRange first last a _ :: l' =>
      match parse_cp first with
      | Raise e => (g, r, Raise e)
      | Ok f =>
          match parse_cp last with
          | Raise e => (g, r, Raise e)
          | Ok la =>
              match attempt force r
                      (lgr_add_range g f la (at_comment a) (attr_words (at_ref a)) (attr_words (at_tag a))
                                     (at_when a) (at_not_when a) None false force) with
              | (g1, r1, Raise e) => (g1, r1, Raise e)
              | (g1, r1, Ok _) => process_data_loop force g1 r1 previous l'
              end
          end
      end
  end.
Definition process_data (force : bool) (g : lgr) (r : results) (l : list data_elem) : lgr * results * res unit :=
  match process_data_loop force g r [] l with
  | (g', r', Ok _) =>
      (g', report_tested (report_tested r' "char_ascending_order") "char_strict_ascending_order", Ok tt)
  | x => x
  end.

(** s.replace('\r\n', '\n'). *)
Fixpoint replace_crlf (s : cps) : cps :=
  match s with
  | 13 :: 10 :: s' => 10 :: replace_crlf s'
  | c :: s' => c :: replace_crlf s'
  | [] => []
  end.

Definition value_of (o : option cps) : cps := match o with Some s => s | None => [] end.

Definition set_version_ (m : metadata) (v : version) : metadata :=
  mkMeta (Some v) (md_date m) (md_languages m) (md_scopes m) (md_start m) (md_end m) (md_unicode m) (md_description m) (md_checks m).
Definition add_scope_ (m : metadata) (s : scope) : metadata :=
  mkMeta (md_version m) (md_date m) (md_languages m) (md_scopes m ++ [s]) (md_start m) (md_end m) (md_unicode m) (md_description m) (md_checks m).
Definition set_description_ (m : metadata) (d : description) : metadata :=
  mkMeta (md_version m) (md_date m) (md_languages m) (md_scopes m) (md_start m) (md_end m) (md_unicode m) (Some d) (md_checks m).

(** Date and Unicode version setters called with None fail in re.match or
    split (TypeError stands for AttributeError too). *)
Definition needs_text (m : metadata) (o : option cps) (f : cps -> metadata * res unit) : metadata * res unit :=
  match o with Some s => f s | None => (m, Raise TypeError) end.

(** xml_parser.py:209-218. *)
Fixpoint process_references (rm : refman) (l : list ref_elem) : refman * res unit :=
  match l with
  | [] => (rm, Ok tt)
  | e :: l' =>
      match rm_add rm (re_value e) (re_comment e) (re_id e) with
      | (rm1, Raise x) => (rm1, Raise x)
      | (rm1, Ok _) => process_references rm1 l'
      end
  end.

(** xml_parser.py:189-223: one child of <meta>.  Metadata and parser report to
    the same test results, held here by the metadata. *)
Definition process_meta_elem (lang_check : cps -> option bool) (dig : N -> bool) (force : bool)
  (m : metadata) (rm : refman) (e : meta_elem) : metadata * refman * res unit :=
  let keep (p : metadata * res unit) := (fst p, rm, snd p) in
  match e with
  | MDateE t => keep (needs_text m t (fun d => md_set_date m d force))
  | MStartE t => keep (needs_text m t (fun d => md_set_start m d force))
  | MEndE t => keep (needs_text m t (fun d => md_set_end m d force))
  | MUnicodeE t => keep (needs_text m t (fun d => md_set_unicode_version dig m d force))
  | MVersion t c => (set_version_ m (mkVersion (value_of t) c), rm, Ok tt)
  | MLanguageE t => keep (md_add_language lang_check m (value_of t) force)
  | MScopeE t ty => (add_scope_ m (mkScope (value_of t) ty), rm, Ok tt)
  | MDescriptionE None _ => (m, rm, Raise TypeError)
  | MDescriptionE (Some t) ty => (set_description_ m (mkDesc (replace_crlf t) ty), rm, Ok tt)
  | MReferencesE l => let '(rm1, x) := process_references rm l in (m, rm1, x)
  | MOtherE => (set_md_checks m (report_error (md_checks m) "parse_xml"), rm, Ok tt)
  end.

Fixpoint process_meta_loop (lang_check : cps -> option bool) (dig : N -> bool) (force : bool)
  (m : metadata) (rm : refman) (l : list meta_elem) : metadata * refman * res unit :=
  match l with
  | [] => (m, rm, Ok tt)
  | e :: l' =>
      match process_meta_elem lang_check dig force m rm e with
      | (m1, rm1, Raise x) => (m1, rm1, Raise x)
      | (m1, rm1, Ok _) => process_meta_loop lang_check dig force m1 rm1 l'
      end
  end.

Definition is_unicode_elem (e : meta_elem) : bool := match e with MUnicodeE _ => true | _ => false end.

(** xml_parser.py:176-229 _process_meta. *)
Definition process_meta (lang_check : cps -> option bool) (dig : N -> bool) (force : bool) (l : list meta_elem)
  : metadata * refman * res unit :=
  match process_meta_loop lang_check dig force new_metadata empty_refman l with
  | (m, rm, Ok _) =>
      (set_md_checks m (add_test_result (md_checks m) "explicit_unicode_version" (existsb is_unicode_elem l)), rm, Ok tt)
  | x => x
  end.

(** xml_parser.py:157-174 parse_document: the LGR made from the metadata, then
    the data; None when <meta> could not be read. *)
Definition parse_document (lang_check : cps -> option bool) (dig : N -> bool) (db : option unidb)
  (allow_invalid force : bool) (x : xml_doc) : option (metadata * lgr) * res unit :=
  match process_meta lang_check dig force (x_meta x) with
  | (m, rm, Raise e) => (None, Raise e)
  | (m, rm, Ok _) =>
      match process_data force (set_refs (new_lgr db allow_invalid) rm) (md_checks m) (x_data x) with
      | (g, r, Raise e) => (Some (set_md_checks m r, g), Raise e)
      | (g, r, Ok _) => (Some (set_md_checks m (report_tested r "parse_xml"), g), Ok tt)
      end
  end.
