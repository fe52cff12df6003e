(** Model of the parsers of plain text tables: lgr/parser/line_parser.py,
    rfc4290_parser.py, rfc3743_parser.py and the choice made by
    heuristic_parser.py.  No proofs here.

    A file is a list of lines (its iteration); text is a list of code points.
    The regular expressions are written out as matching functions: each is the
    greedy match of Python's re, which never has to backtrack here except where
    noted.  Simplifications: \d is an ASCII digit; log messages are dropped;
    texts kept by the reference manager go through [enc], any encoding. *)
From Verif Require Import Base CharModel LgrModel UtilsModel ValidateModel.

(** How the parsing ends: UnboundLocalError is not an LGR error. *)
Inductive ending : Type := Done | Failed (e : exn) | Unbound.

Definition is_hex (c : N) : bool := match char_digit c with Some _ => true | None => false end.

(** Up to [k] hexadecimal digits. *)
Fixpoint take_hex (k : nat) (s : cps) : cps * cps :=
  match k, s with
  | S k', c :: r => if is_hex c then let '(d, t) := take_hex k' r in (c :: d, t) else ([], s)
  | _, _ => ([], s)
  end.
(** [0-9a-fA-F]{4,6} at the start of [s]. *)
Definition match_hex (s : cps) : option (cps * cps) :=
  let '(d, t) := take_hex 6 s in if Nat.leb 4 (length d) then Some (d, t) else None.
(** line_parser.py:17, rfc4290_parser.py:17: U\+([0-9a-fA-F]{4,6}) at the start. *)
Definition match_u (s : cps) : option (cps * cps) :=
  match s with
  | a :: b :: r => if N.eqb a 85 && N.eqb b 43 then match_hex r else None
  | _ => None
  end.
Definition int16 (d : cps) : res N := bind (py_int 16 d) (fun z => Ok (Z.to_N z)).

(** re.finditer with [match_u]: the digits of each match. [fuel]: length of the
    text. *)
Fixpoint find_u (fuel : nat) (s : cps) : list cps :=
  match fuel with
  | O => []
  | S f =>
      match s with
      | [] => []
      | _ :: r => match match_u s with
                  | Some (d, t) => d :: find_u f t
                  | None => find_u f r
                  end
      end
  end.

(** A line that is neither empty nor a comment, stripped (line_parser.py:40-44
    and the same lines of the two other parsers). *)
Definition data_line (line : cps) : option cps :=
  match strip line with
  | [] => None
  | c :: r => if N.eqb c 35 then None else Some (c :: r)
  end.

(** except LGRException around an operation. *)
Definition tolerated (x : lgr * res unit) : lgr * ending :=
  match x with
  | (g, Ok _) => (g, Done)
  | (g, Raise e) => (g, if is_lgr_exception e then Done else Failed e)
  end.

(** except ValueError and except LGRException around an operation. *)
Definition tolerated_value (x : lgr * res unit) : lgr * ending :=
  match x with
  | (g, Raise ValueError) => (g, Done)
  | _ => tolerated x
  end.

(** ** line_parser.py:30-60 _parse_doc *)
Definition ok_values (l : list (res N)) : list N :=
  flat_map (fun x => match x with Ok n => [n] | Raise _ => [] end) l.
Definition line_one (g : lgr) (line : cps) : lgr * ending :=
  match data_line line with
  | None => (g, Done)
  | Some l => tolerated (lgr_add_cp g (ok_values (map int16 (find_u (length l) l))) None [] [] None None None false false)
  end.
Fixpoint line_doc (g : lgr) (lines : list cps) : lgr * ending :=
  match lines with
  | [] => (g, Done)
  | l :: rest => match line_one g l with (g', Done) => line_doc g' rest | x => x end
  end.
(** parser.py:68-87 parse_document: a fresh LGR without Unicode database. *)
Definition parse_line_doc (allow_invalid : bool) (lines : list cps) : lgr * ending :=
  line_doc (new_lgr None allow_invalid) lines.

(** ** rfc4290_parser.py:89-108 parse_char *)
Definition parse_char_4290 (s : cps) : res cps :=
  mapM_res (fun c => match match_u c with Some (d, _) => int16 d | None => Raise ValueError end) (split_on 45 s).

(** rfc4290_parser.py:70-86: the variants of a line; [last] is the variable
    codepoints, possibly unbound. *)
Fixpoint vars_4290 (force : bool) (last : option cps) (g : lgr) (vars : list cps) : lgr * ending :=
  match vars with
  | [] => (g, Done)
  | var :: rest =>
      match parse_char_4290 var with
      | Raise _ => vars_4290 force last g rest
      | Ok v =>
          match last with
          | None => (g, Unbound)
          | Some c =>
              match tolerated_value (lgr_add_variant g c v None None None None [] None false force) with
              | (g', Done) => vars_4290 force last g' rest
              | x => x
              end
          end
      end
  end.
(** rfc4290_parser.py:42-86, one line. *)
Definition one_4290 (force : bool) (last : option cps) (g : lgr) (line : cps) : option cps * (lgr * ending) :=
  match data_line line with
  | None => (last, (g, Done))
  | Some l =>
      match match_u l with
      | None => (last, (g, Done))
      | Some _ =>
          match split_on 124 (hd [] (split_on 35 l)) with
          | [] => (last, (g, Done))
          | char :: more =>
              let '(last', (g', o)) :=
                match parse_char_4290 char with
                | Raise _ => (last, (g, Done))
                | Ok c => (Some c, tolerated_value (lgr_add_cp g c None [] [] None None None false force))
                end in
              match o with
              | Done => match more with
                        | [] => (last', (g', Done))
                        | vars :: _ => (last', vars_4290 force last' g' (split_on 58 vars))
                        end
              | _ => (last', (g', o))
              end
          end
      end
  end.
Fixpoint doc_4290 (force : bool) (last : option cps) (g : lgr) (lines : list cps) : lgr * ending :=
  match lines with
  | [] => (g, Done)
  | l :: rest =>
      match one_4290 force last g l with
      | (last', (g', Done)) => doc_4290 force last' g' rest
      | (_, x) => x
      end
  end.
Definition parse_4290 (force allow_invalid : bool) (lines : list cps) : lgr * ending :=
  doc_4290 force None (new_lgr None allow_invalid) lines.

(** ** rfc3743_parser.py *)

Definition is_digit (c : N) : bool := N.leb 48 c && N.leb c 57.

(** (?:U\+)?[0-9a-fA-F]{4,6} ? : the text taken and the rest. *)
Definition match_unit (s : cps) : option (cps * cps) :=
  let '(p, r) := match s with
                 | a :: b :: r => if N.eqb a 85 && N.eqb b 43 then ([85; 43], r) else ([], s)
                 | _ => ([], s)
                 end in
  match match_hex r with
  | None => None
  | Some (d, t) => match t with
                   | c :: t' => if N.eqb c 32 then Some (p ++ d ++ [32], t') else Some (p ++ d, t)
                   | [] => Some (p ++ d, t)
                   end
  end.
(** (...)+ : the text of the sequence and the rest; empty text: no match. *)
Fixpoint match_units (fuel : nat) (s : cps) : cps * cps :=
  match fuel with
  | O => ([], s)
  | S f => match match_unit s with
           | None => ([], s)
           | Some (u, t) => let '(us, t') := match_units f t in (u ++ us, t')
           end
  end.
(** The rest of the references: comma and digit, any number of times, then the
    closing parenthesis (rfc3743_parser.py:24). *)
Fixpoint match_ref_tail (s : cps) : option (list N * cps) :=
  match s with
  | a :: r =>
      if N.eqb a 41 then Some ([], r)
      else if N.eqb a 44 then
        match r with
        | d :: r' => if is_digit d
                     then option_map (fun p : list N * cps => (d :: fst p, snd p)) (match_ref_tail r')
                     else None
        | [] => None
        end
      else None
  | [] => None
  end.
(** The optional references in parentheses (rfc3743_parser.py:24): digits and
    rest, None when absent. *)
Definition match_refs (s : cps) : option (list N * cps) :=
  match s with
  | a :: d :: r => if N.eqb a 40 && is_digit d
                   then option_map (fun p : list N * cps => (d :: fst p, snd p)) (match_ref_tail r)
                   else None
  | _ => None
  end.
(** rfc3743_parser.py:24 UNICODE_CODEPOINT_RE at the start of [s]: the
    sequence, the references, the rest. *)
Definition match_3743 (s : cps) : option (cps * list N * cps) :=
  match match_units (length s) s with
  | ([], _) => None
  | (us, t) => match match_refs t with
               | Some (ds, t') => Some (us, ds, t')
               | None => Some (us, [], t)
               end
  end.
(** cp.replace('U+', '') *)
Fixpoint remove_u_plus (s : cps) : cps :=
  match s with
  | a :: r => match r with
              | b :: r' => if N.eqb a 85 && N.eqb b 43 then remove_u_plus r' else a :: remove_u_plus r
              | [] => s
              end
  | [] => []
  end.
(** rfc3743_parser.py:146-180 parse_char; a reference is its digit. *)
Definition sequence_values (us : cps) : res cps := mapM_res (fun p => int16 (remove_u_plus p)) (split_on 32 us).
Definition digit_name (d : N) : string := untxt [d].
Fixpoint parse_char_3743_from (fuel : nat) (s : cps) : res (list (cps * list string)) :=
  match fuel with
  | O => Ok []
  | S f =>
      match s with
      | [] => Ok []
      | _ :: r =>
          match match_3743 s with
          | None => parse_char_3743_from f r
          | Some (us, ds, t) =>
              bind (sequence_values us) (fun c =>
              bind (parse_char_3743_from f t) (fun l => Ok ((c, map digit_name ds) :: l)))
          end
      end
  end.
Definition parse_char_3743 (s : cps) : res (list (cps * list string)) := parse_char_3743_from (length s) s.

(** \s* at the start. *)
Fixpoint take_space (s : cps) : cps * cps :=
  match s with
  | c :: r => if is_space c then let '(w, t) := take_space r in (c :: w, t) else ([], s)
  | [] => ([], [])
  end.
Fixpoint strip_prefix (p s : cps) : option cps :=
  match p, s with
  | [], _ => Some s
  | a :: p', b :: s' => if N.eqb a b then strip_prefix p' s' else None
  | _, [] => None
  end.
Fixpoint until_hash (s : cps) : cps * cps :=
  match s with
  | c :: r => if N.eqb c 35 then ([], s) else let '(a, t) := until_hash r in (c :: a, t)
  | [] => ([], [])
  end.
(** The optional comment of lines 18 and 19: what follows the '#' and blanks. *)
Definition match_comment (s : cps) : option cps :=
  match s with c :: r => if N.eqb c 35 then Some (snd (take_space r)) else None | [] => None end.
(** word \s+ \d : the digit and the rest. *)
Definition match_numbered (word s : cps) : option (N * cps) :=
  match strip_prefix word s with
  | None => None
  | Some r => match take_space r with
              | ([], _) => None
              | (_, d :: t) => if is_digit d then Some (d, t) else None
              | _ => None
              end
  end.
(** rfc3743_parser.py:18 REFERENCE_RE: id, value, comment.  The one backtracking:
    when a '#' (or the end) follows the blanks, the last blank is the value. *)
Definition match_reference (s : cps) : option (N * cps * option cps) :=
  match match_numbered (txt "Reference") s with
  | None => None
  | Some (d, r) =>
      match take_space r with
      | ([], _) => None
      | (w, t) =>
          match until_hash t with
          | ([], t') => match w with
                        | [] | [_] => None
                        | _ => Some (d, [last w 32], match_comment t')
                        end
          | (v, t') => Some (d, v, match_comment t')
          end
      end
  end.
(** \d{8} *)
Fixpoint take_digits (k : nat) (s : cps) : option (cps * cps) :=
  match k with
  | O => Some ([], s)
  | S k' => match s with
            | c :: r => if is_digit c then option_map (fun p : cps * cps => (c :: fst p, snd p)) (take_digits k' r) else None
            | [] => None
            end
  end.
(** rfc3743_parser.py:19 VERSION_RE: number, date, comment. *)
Definition match_version (s : cps) : option (N * cps * option cps) :=
  match match_numbered (txt "Version") s with
  | None => None
  | Some (d, r) =>
      match take_space r with
      | ([], _) => None
      | (_, t) => match take_digits 8 t with
                  | None => None
                  | Some (date, t') => Some (d, date, match_comment (snd (take_space t')))
                  end
      end
  end.

(** The metadata these tables set. *)
Record table_meta : Type := mkTm { tm_version : option (N * option cps); tm_date : option cps }.

Section Rfc3743.
  (** How the manager of references keeps a text. *)
  Variable enc : cps -> string.
  Variable force : bool.

  (** rfc3743_parser.py:126-143 insert_variant. *)
  Fixpoint add_vars_3743 (c : cps) (type_ : option string) (g : lgr) (l : list (cps * list string)) : lgr * ending :=
    match l with
    | [] => (g, Done)
    | (v, refs) :: rest =>
        match tolerated (lgr_add_variant g c v type_ None None None refs None false force) with
        | (g', Done) => add_vars_3743 c type_ g' rest
        | x => x
        end
    end.
  Definition insert_3743 (last : option cps) (type_ : option string) (g : lgr) (var : cps) : lgr * ending :=
    match last with
    | None => (g, Unbound)
    | Some c => match parse_char_3743 var with
                | Raise _ => (g, Done)
                | Ok l => add_vars_3743 c type_ g l
                end
    end.
  (** rfc3743_parser.py:109-124: one column of variants. *)
  Definition column_3743 (last : option cps) (type_ : option string) (g : lgr) (col : option cps) : lgr * ending :=
    match col with
    | None => (g, Done)
    | Some t => match strip t with
                | [] => (g, Done)
                | c :: r => if N.eqb c 35 then (g, Done) else insert_3743 last type_ g (c :: r)
                end
    end.

  Record state_3743 : Type := mkSt { st_last : option cps; st_lgr : lgr; st_meta : table_meta }.

  (** rfc3743_parser.py:93-124: a line of code points. *)
  Definition row_3743 (st : state_3743) (l : cps) : state_3743 * ending :=
    let cols := split_on 59 (strip (hd [] (split_on 35 l))) in
    let '(last', (g1, o1)) :=
      match parse_char_3743 (hd [] cols) with
      | Ok [(c, refs)] => (Some c, tolerated_value (lgr_add_cp (st_lgr st) c None refs [] None None None false force))
      | _ => (st_last st, (st_lgr st, Done))
      end in
    match o1 with
    | Done =>
        match column_3743 last' (Some "activated"%string) g1 (nth_error cols 1) with
        | (g2, Done) => let '(g3, o3) := column_3743 last' None g2 (nth_error cols 2) in
                        (mkSt last' g3 (st_meta st), o3)
        | (g2, o2) => (mkSt last' g2 (st_meta st), o2)
        end
    | _ => (mkSt last' g1 (st_meta st), o1)
    end.
  (** rfc3743_parser.py:50-124, one line. *)
  Definition one_3743 (st : state_3743) (line : cps) : state_3743 * ending :=
    match data_line line with
    | None => (st, Done)
    | Some l =>
        match match_reference l with
        | Some (d, v, cm) =>
            (mkSt (st_last st) (fst (lgr_add_reference (st_lgr st) (enc v) (option_map enc cm) (Some (digit_name d)))) (st_meta st), Done)
        | None =>
            match match_version l with
            | Some (d, date, cm) => (mkSt (st_last st) (st_lgr st) (mkTm (Some (d, cm)) (Some date)), Done)
            | None => match match_3743 l with
                      | None => (st, Done)
                      | Some _ => row_3743 st l
                      end
            end
        end
    end.
  Fixpoint doc_3743 (st : state_3743) (lines : list cps) : state_3743 * ending :=
    match lines with
    | [] => (st, Done)
    | l :: rest => match one_3743 st l with
                   | (st', Done) => doc_3743 st' rest
                   | x => x
                   end
    end.
  Definition parse_3743 (allow_invalid : bool) (lines : list cps) : state_3743 * ending :=
    doc_3743 (mkSt None (new_lgr None allow_invalid) (mkTm None None)) lines.
End Rfc3743.

(** ** heuristic_parser.py *)
Inductive format : Type := FXml | F3743 | F4290.
(** heuristic_parser.py:64-97 _check_rfc_format; [seen]: the variable match.
    The lines are those of splitlines(). *)
Fixpoint check_format (seen : bool) (lines : list cps) : option format :=
  match lines with
  | [] => if seen then Some F4290 else None
  | line :: rest =>
      let l := strip (hd [] (split_on 35 line)) in
      match match_u l with
      | Some _ => if memb N.eqb 59 l then Some F3743
                  else if memb N.eqb 124 l then Some F4290
                  else check_format true rest
      | None => match match_3743 l with
                | Some _ => Some F3743
                | None => check_format seen rest
                end
      end
  end.
(** heuristic_parser.py:41-62 _find_parser; [xml]: _is_lgr of the first line. *)
Definition find_parser (xml : bool) (lines : list cps) : format :=
  if xml then FXml else match check_format false lines with Some f => f | None => FXml end.
