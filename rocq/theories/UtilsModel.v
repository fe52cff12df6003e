(** Model of lgr/utils.py (formatting, collapsing), of Python's int()/str()
    on the texts involved and of the code point input parser of
    lgr/tools/utils.py.  No proofs here.

    Python text is a list of code points ([cps]).  Simplification: int() is
    modelled on ASCII digits only; other Unicode decimal digits are treated as
    invalid. *)
From Verif Require Import Base.
From Coq Require Import Ascii.

(** ** Digits *)
Definition digit_char (d : N) : N := if N.ltb d 10 then 48 + d else 55 + d.

(** Value of a digit character in bases up to 16 (upper or lower case). *)
Definition char_digit (c : N) : option N :=
  if N.leb 48 c && N.leb c 57 then Some (c - 48)
  else if N.leb 65 c && N.leb c 70 then Some (c - 55)
  else if N.leb 97 c && N.leb c 102 then Some (c - 87)
  else None.

Fixpoint digits_aux (base : N) (fuel : nat) (n : N) (acc : cps) : cps :=
  match fuel with
  | O => acc
  | S f =>
      let acc' := digit_char (N.modulo n base) :: acc in
      if N.eqb (N.div n base) 0 then acc' else digits_aux base f (N.div n base) acc'
  end.
(** Positional notation without leading zeros; the fuel (number of bits) is
    always enough, see [digits_value]. *)
Definition digits (base n : N) : cps := digits_aux base (S (N.to_nat (N.size n))) n [].

Fixpoint pad0 (k : nat) (l : cps) : cps :=
  match k with O => l | S k' => 48 :: pad0 k' l end.

(** lgr/utils.py:43-47 cp_to_str: "%04X" % cp. *)
Definition cp_to_str (c : N) : cps :=
  let d := digits 16 c in pad0 (4 - length d) d.

(** str(z) for an int. *)
Definition py_str_Z (z : Z) : cps :=
  match z with
  | Zneg p => 45 :: digits 10 (Npos p)
  | _ => digits 10 (Z.to_N z)
  end.

Fixpoint txt (s : string) : cps :=
  match s with
  | EmptyString => []
  | String a r => N_of_ascii a :: txt r
  end.
Fixpoint untxt (l : cps) : string :=
  match l with
  | [] => EmptyString
  | c :: r => String (ascii_of_N c) (untxt r)
  end.

(** ** Whitespace, strip, split, join *)
(** Characters for which str.isspace() holds. *)
Definition is_space (c : N) : bool :=
  (N.leb 9 c && N.leb c 13) || (N.leb 28 c && N.leb c 32) || N.eqb c 133 || N.eqb c 160
  || N.eqb c 5760 || (N.leb 8192 c && N.leb c 8202) || N.eqb c 8232 || N.eqb c 8233
  || N.eqb c 8239 || N.eqb c 8287 || N.eqb c 12288.

Fixpoint lstrip (s : cps) : cps :=
  match s with
  | [] => []
  | c :: r => if is_space c then lstrip r else s
  end.
Definition strip (s : cps) : cps := rev (lstrip (rev (lstrip s))).

(** s.split(): words separated by runs of whitespace. [cur] is the current
    word, reversed. *)
Fixpoint split_ws_aux (cur : cps) (s : cps) : list cps :=
  match s with
  | [] => match cur with [] => [] | _ => [rev cur] end
  | c :: r => if is_space c
              then match cur with [] => split_ws_aux [] r | _ => rev cur :: split_ws_aux [] r end
              else split_ws_aux (c :: cur) r
  end.
Definition split_ws (s : cps) : list cps := split_ws_aux [] s.

(** s.split(sep) for a one-character separator. *)
Fixpoint split_on_aux (sep : N) (cur : cps) (s : cps) : list cps :=
  match s with
  | [] => [rev cur]
  | c :: r => if N.eqb c sep then rev cur :: split_on_aux sep [] r
              else split_on_aux sep (c :: cur) r
  end.
Definition split_on (sep : N) (s : cps) : list cps := split_on_aux sep [] s.

(** sep.join(l). *)
Fixpoint join (sep : cps) (l : list cps) : cps :=
  match l with
  | [] => []
  | [x] => x
  | x :: r => x ++ sep ++ join sep r
  end.

(** lgr/parser/xml_parser.py:546-567 string_to_list. *)
Definition string_to_list (s : cps) : list cps :=
  match s with [] => [] | _ => split_on 32 s end.

(** ** Python int(s, base) for base 10 and 16 *)
(** Digits with single underscores between them; [acc] is [None] before the
    first digit; [us] tells that the previous character was an underscore. *)
Fixpoint int_digits (base : N) (acc : option N) (us : bool) (s : cps) : option N :=
  match s with
  | [] => if us then None else acc
  | c :: r =>
      if N.eqb c 95
      then if us then None else match acc with None => None | Some _ => int_digits base acc true r end
      else match char_digit c with
           | Some d => if N.ltb d base
                       then int_digits base (Some (match acc with None => 0 | Some a => a end * base + d)) false r
                       else None
           | None => None
           end
  end.

(** After the sign: an optional 0x/0X prefix (base 16), which may be followed
    by one underscore. *)
Definition int_unsigned (base : N) (s : cps) : option N :=
  match s with
  | 48 :: x :: r =>
      if N.eqb base 16 && (N.eqb x 120 || N.eqb x 88)
      then match r with
           | 95 :: r' => int_digits base None false r'
           | _ => int_digits base None false r
           end
      else int_digits base None false s
  | _ => int_digits base None false s
  end.

Definition py_int (base : N) (s : cps) : res Z :=
  let r := match strip s with
           | 45 :: t => option_map (fun n => Z.opp (Z.of_N n)) (int_unsigned base t)
           | 43 :: t => option_map Z.of_N (int_unsigned base t)
           | t => option_map Z.of_N (int_unsigned base t)
           end in
  match r with Some z => Ok z | None => Raise ValueError end.

(** ** lgr/utils.py *)
(** utils.py:50-70 format_cp on a sequence. *)
Definition u_plus : cps := [85; 43].
Definition format_cp (c : cps) : cps := join [32] (map (fun x => u_plus ++ cp_to_str x) c).

(** utils.py:128-143: the loop of collapse_codepoints. *)
Fixpoint collapse_loop (first last : N) (l : list N) : list (N * N) :=
  match l with
  | [] => [(first, last)]
  | c :: l' =>
      if N.eqb c (last + 1) then collapse_loop first c l'
      else (first, last) :: collapse_loop c c l'
  end.

(** utils.py:112-143 collapse_codepoints; IndexError on an empty list. *)
Definition collapse_codepoints (l : list N) : res (list (N * N)) :=
  match isort N.leb l with
  | [] => Raise IndexError
  | c :: l' => Ok (collapse_loop c c l')
  end.

(** utils.py:73-109 format_cp_collapsed. *)
Definition format_range (p : N * N) : list cps :=
  let '(s, e) := p in
  if N.eqb s e then [u_plus ++ cp_to_str s]
  else if N.eqb e (s + 1) then [u_plus ++ cp_to_str s; u_plus ++ cp_to_str e]
  else [join [45] [u_plus ++ cp_to_str s; u_plus ++ cp_to_str e]].
Definition format_cp_collapsed (l : list N) : res cps :=
  bind (collapse_codepoints l) (fun rs => Ok (join [32] (flat_map format_range rs))).

(** ** lgr/tools/utils.py *)
Definition upper_ascii (c : N) : N := if N.leb 97 c && N.leb c 122 then c - 32 else c.

(** tools/utils.py:74-132 parse_single_cp_input. The 'U+' test is
    case-insensitive on the first character. *)
Definition parse_single_cp_input (s0 : cps) : res N :=
  let s := strip s0 in
  match s with
  | [c] => Ok c
  | _ =>
      let v := match s with
               | a :: b :: r => if N.eqb (upper_ascii a) 85 && N.eqb b 43
                                then py_int 16 r else py_int 16 s
               | _ => py_int 16 s
               end in
      bind v (fun z => if (z <? 0)%Z || (1114111 <? z)%Z then Raise ValueError
                       else Ok (Z.to_N z))
  end.

(** tools/utils.py:135-159 parse_codepoint_input. *)
Definition parse_codepoint_input (s : cps) : res (list N) :=
  mapM_res parse_single_cp_input (split_ws s).

(** parser/xml_parser.py:526-527: the [cp] attribute of a char element. *)
Definition parse_cp_attr (s : cps) : res (list Z) := mapM_res (py_int 16) (split_ws s).
(** parser/xml_serializer.py: [cp] attribute, ' '.join(cp_to_str). *)
Definition format_cp_attr (c : cps) : cps := join [32] (map cp_to_str c).
