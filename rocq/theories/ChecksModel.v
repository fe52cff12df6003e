(** Model of lgr/validate/miscellaneous.py, lgr/tools/idna2008_compliance.py,
    lgr/utils.py:235-243 and lgr/tools/utils.py:279-319 (script of a root zone
    label).  The Unicode database is an argument: its version, the IDNA
    property and the script of a code point.  No proofs here. *)
From Verif Require Import Base CharModel ActionModel LgrModel Rfc7940Model MetaModel CompareModel.
From Coq Require Import Ascii.
Open Scope string_scope.
Open Scope list_scope.

(** What is read of the Unicode database (munidata): get_unicode_version,
    get_idna_prop and is_idna2003_disallowed. *)
Record ucd : Type := mkUcd {
  ucd_version : cps;
  ucd_idna : N -> string;
  ucd_idna2003_disallowed : N -> bool
}.

(** utils.py:17 VALID_IDNA_PROPERTY_VALUES. *)
Definition valid_idna_values : list string := ["PVALID"; "CONTEXTJ"; "CONTEXTO"].
(** utils.py:235-243 is_idna_valid_cp_or_sequence. *)
Fixpoint idna_valid_loop (db : ucd) (check_all : bool) (l : list N) (invalid : dict N string) : bool * dict N string :=
  match l with
  | [] => (match invalid with [] => true | _ => false end, invalid)
  | c :: l' =>
      let prop := ucd_idna db c in
      if memb String.eqb prop valid_idna_values then idna_valid_loop db check_all l' invalid
      else let invalid' := dset N.eqb c prop invalid in
           if check_all then idna_valid_loop db check_all l' invalid' else (false, invalid')
  end.
Definition is_idna_valid (db : ucd) (l : list N) (check_all : bool) : bool * dict N string :=
  idna_valid_loop db check_all l [].

(** miscellaneous.py:35: ' ' in t or t == '' or t[0] == '_'. *)
Fixpoint has_space (t : string) : bool :=
  match t with
  | EmptyString => false
  | String c r => if Ascii.eqb c " " then true else has_space r
  end.
Definition bad_type (t : string) : bool :=
  if has_space t then true
  else match t with EmptyString => true | String c _ => Ascii.eqb c "_" end.

(** miscellaneous.py:28-39: the variant types. *)
Definition type_failures (ch : char) : list report :=
  flat_map (fun v => match v_type v with
                     | Some t => if bad_type t then [("data_variant_type", false)] else []
                     | None => []
                     end) (get_variants ch).
Definition types_of_char (ch : char) : list report :=
  if is_range ch then [] else type_failures ch ++ [("data_variant_type", true)].
Definition check_types (l : list char) : list report * bool :=
  (flat_map types_of_char l,
   forallb (fun ch => if is_range ch then true else match type_failures ch with [] => true | _ => false end) l).

(** miscellaneous.py:45-54: the code points to check; a Python set, whose
    order is not observable here (every failure makes the same report). *)
Definition to_check (l : list char) : list N :=
  dedup N.eqb (flat_map (fun ch => match ch_kind ch with
                                   | KRange f e => nrange f e
                                   | _ => ch_cp ch ++ flat_map v_cp (get_variants ch)
                                   end) l).
(** miscellaneous.py:41-65. *)
Definition check_code_points (db : ucd) (unicode_version : option cps) (l : list char) : list report * bool :=
  if match unicode_version with Some v => cps_eqb (ucd_version db) v | None => false end then
    let invalid := snd (is_idna_valid db (to_check l) true) in
    ([("valid_unicode_version", true)] ++ map (fun _ => ("codepoint_valid", false)) invalid ++ [("codepoint_valid", true)],
     match invalid with [] => true | _ => false end)
  else ([], true).

(** miscellaneous.py:79-82: re.match(r'\d+$', n) and int(n), for ASCII digits;
    the '$' lets one final line feed through, which int() ignores. *)
Definition digit (c : ascii) : option N :=
  let n := N_of_ascii c in if N.leb 48 n && N.leb n 57 then Some (n - 48)%N else None.
Fixpoint digits (s : string) (acc : N) (some_digit : bool) : option N :=
  match s with
  | EmptyString => if some_digit then Some acc else None
  | String c r =>
      match digit c with
      | Some d => digits r (acc * 10 + d)%N true
      | None => if (N.eqb (N_of_ascii c) 10 && String.eqb r "" && some_digit)%bool then Some acc else None
      end
  end.
Definition as_number (s : string) : option N := digits s 0 false.
(** miscellaneous.py:76-87 check_ref_ascending; [last] is None for -1. *)
Fixpoint ref_ascending (last : option N) (l : list string) : bool :=
  match l with
  | [] => true
  | s :: l' =>
      match as_number s with
      | None => true
      | Some n => if match last with None => true | Some p => N.ltb p n end then ref_ascending (Some n) l' else false
      end
  end.
(** miscellaneous.py:67-72. *)
Definition ref_lists (l : list char) : list (list string) :=
  flat_map (fun ch => ch_refs ch :: map v_refs (get_variants ch)) l.
Definition check_refs (l : list char) : list report * bool :=
  (flat_map (fun refs => if ref_ascending None refs then [] else [("ref_attribute_ascending", false)]) (ref_lists l)
     ++ [("ref_attribute_ascending", true)],
   forallb (ref_ascending None) (ref_lists l)).

(** miscellaneous.py:24-74 check_lgr_data.  Without a Unicode database the
    attribute access on None fails (TypeError stands for AttributeError). *)
Definition check_lgr_data (db : option ucd) (d : doc) : list report * res bool :=
  let l := rep_iter (lg_rep (doc_lgr d)) in
  let '(r1, b1) := check_types l in
  match db with
  | None => (r1, Raise TypeError)
  | Some db' =>
      let '(r2, b2) := check_code_points db' (md_unicode (doc_meta d)) l in
      let '(r3, b3) := check_refs l in
      (r1 ++ r2 ++ r3, Ok (b1 && b2 && b3)%bool)
  end.

(** miscellaneous.py:15-21 STANDARD_DISPOSITIONS, 89-101 check_lgr_rules. *)
Definition standard_dispositions : list string := ["invalid"; "blocked"; "allocatable"; "activated"; "valid"].
Definition check_lgr_rules (d : doc) : list report * bool :=
  let bad := filter (fun a => negb (memb String.eqb (a_disp a) standard_dispositions)) (doc_actions d) in
  (map (fun _ => ("standard_dispositions", false)) bad ++ [("standard_dispositions", true)],
   match bad with [] => true | _ => false end).

(** miscellaneous.py:103-122 check_miscellaneous: `and` skips the data when
    the rules fail. *)
Definition check_miscellaneous (db : option ucd) (d : doc) : list report * res bool :=
  let '(r1, b1) := check_lgr_rules d in
  if b1 then let '(r2, o) := check_lgr_data db d in (r1 ++ r2, o) else (r1, Ok false).

(** ** tools/idna2008_compliance.py *)

(** str.lower() on ASCII. *)
Definition lower_char (c : ascii) : ascii :=
  let n := N_of_ascii c in if (N.leb 65 n && N.leb n 90)%bool then ascii_of_N (n + 32) else c.
Fixpoint lower (s : string) : string :=
  match s with EmptyString => EmptyString | String c r => String (lower_char c) (lower r) end.
(** idna2008_compliance.py:26-30 is_out_of_repertoire. *)
Definition is_out_of_repertoire (ch : char) : bool :=
  existsb (fun v => match v_type v with
                    | Some t => if String.eqb t "" then false else String.prefix "out-of-repertoire" (lower t)
                    | None => false
                    end) (get_reflexive_variants ch).
Record idna_line : Type := mkIdnaLine { il_cp : cps; il_property : list string; il_idna2003 : bool }.
(** idna2008_compliance.py:9-24; of a report line only the code points, the
    IDNA properties (joined by blanks in the code) and the IDNA 2003 flag are kept
    (glyph, name and category are display only). *)
Definition idna_line_of (db : ucd) (ch : char) : idna_line :=
  mkIdnaLine (ch_cp ch) (map (ucd_idna db) (ch_cp ch)) (negb (existsb (ucd_idna2003_disallowed db) (ch_cp ch))).
Definition check_idna2008 (db : ucd) (g : lgr) : bool * list idna_line * Z :=
  let report := map (idna_line_of db)
    (filter (fun ch => if negb (is_out_of_repertoire ch) then negb (fst (is_idna_valid db (ch_cp ch) false)) else false)
            (all_repertoire (lg_rep g) true true)) in
  (match report with [] => false | _ => true end, report,
   (Z.of_nat (rep_len (lg_rep g)) - Z.of_nat (length report))%Z).

(** ** tools/utils.py:279-319 get_rz_label_script *)
Definition jpan_pair : list N := [12294; 12540]%N.   (* U+3006, U+30FC *)
Definition common_or_inherited (s : string) : bool := (String.eqb s "Zyyy" || String.eqb s "Zinh")%bool.
Definition kana (s : string) : bool := (String.eqb s "Hira" || String.eqb s "Kana")%bool.
(** The loop of lines 303-306: the script of the first other code point, or of
    the last one read. *)
Fixpoint first_script (script : N -> string) (s : string) (l : list N) : string :=
  match l with
  | [] => s
  | c :: l' => if common_or_inherited (script c) then first_script script (script c) l' else script c
  end.
Definition get_rz_label_script (script : N -> string) (label : cps) : option string :=
  match label with
  | [] => None
  | c :: rest =>
      let s := script c in
      let s1 :=
        if String.eqb s "Hani" then if existsb (fun x => kana (script x)) rest then "Jpan" else "Hani"
        else if common_or_inherited s then
          let s' := first_script script s rest in
          if (common_or_inherited s' && existsb (fun x => memb N.eqb x jpan_pair) label)%bool then "Jpan" else s'
        else s in
      let s2 := if kana s1 then "Jpan" else if String.eqb s1 "Hang" then "Kore" else s1 in
      Some (String.append "und-" s2)
  end.
