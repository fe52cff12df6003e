(** Model of reading label lists (lgr/tools/utils.py) and of annotating their
    labels (lgr/tools/annotate.py).  No proofs here.

    Text is a list of code points.  Output lines are kept structured: the
    formatting of a line ("%s: %s") is not modelled, only what it shows. *)
From Verif Require Import Base CharModel ActionModel LabelModel UtilsModel CollisionModel.

Definition hash_mark : N := 35.
Definition bom : N := 65279.

Definition lower_ascii (c : N) : N := if N.leb 65 c && N.leb c 90 then c + 32 else c.

(** tools/utils.py:211 [s.lower().startswith('xn--')]; no letter outside ASCII
    has one of these characters as its lower case. *)
Definition starts_xn (s : cps) : bool := cps_eqb (map lower_ascii (firstn 4 s)) [120; 110; 45; 45].

(** tools/utils.py:216 ['U+' in s.upper()]. *)
Fixpoint has_u_plus (s : cps) : bool :=
  match s with
  | a :: r => match r with
              | b :: _ => if N.eqb (upper_ascii a) 85 && N.eqb b 43 then true else has_u_plus r
              | [] => false
              end
  | [] => false
  end.

Definition has_blank (s : cps) : bool := memb N.eqb 32 s.

(** l.lstrip('﻿'). *)
Fixpoint strip_bom (s : cps) : cps :=
  match s with
  | c :: r => if N.eqb c bom then strip_bom r else s
  | [] => []
  end.

(** tools/utils.py:42-47 clean. *)
Definition clean (l : cps) : cps := strip (strip_bom l).

(** s[:s.find('#')], or None without '#'. *)
Fixpoint before_hash (s : cps) : option cps :=
  match s with
  | [] => None
  | c :: r => if N.eqb c hash_mark then Some [] else option_map (cons c) (before_hash r)
  end.

Section Reading.
  (** The IDNA decoder applied to s.lower(). *)
  Variable decode : cps -> res cps.

  (** tools/utils.py:194-236 _parse_label_input. *)
  Definition parse_label (keep_spaces : bool) (s : cps) : res cps :=
    if starts_xn s then decode s
    else if (if has_blank s then true else has_u_plus s)
    then match parse_codepoint_input s with
         | Ok l => Ok l
         | Raise e => if negb (has_blank s) then Raise e
                      else if negb keep_spaces then Raise ValueError
                      else Ok s
         end
    else Ok s.

  (** (original label, parsed label, valid, exception). *)
  Record reading : Type := mkReading {
    rd_text : cps;
    rd_label : cps;
    rd_valid : bool;
    rd_error : option exn
  }.

  (** tools/utils.py:162-191 parse_label_input, with the text put in front. *)
  Definition parse_label_input (do_raise keep_spaces : bool) (s : cps) : res reading :=
    match parse_label keep_spaces s with
    | Ok l => Ok (mkReading s l true None)
    | Raise e => if do_raise then Raise e else Ok (mkReading s s false (Some e))
    end.

  (** tools/utils.py:50-71: one turn of the loop of read_labels. *)
  Definition read_line (do_raise keep_commented : bool) (line : cps) : res (list reading) :=
    let l := clean line in
    match before_hash l with
    | Some [] => Ok (if keep_commented then [mkReading l l true None] else [])
    | h =>
        let l' := match h with Some p => strip p | None => l end in
        match l' with
        | [] => Ok []
        | _ => bind (parse_label_input do_raise false l') (fun x => Ok [x])
        end
    end.

  (** tools/utils.py:29-71 read_labels: what is yielded, and how it ends. *)
  Fixpoint read_labels (do_raise keep_commented : bool) (lines : list cps) : list reading * res unit :=
    match lines with
    | [] => ([], Ok tt)
    | l :: rest =>
        match read_line do_raise keep_commented l with
        | Raise e => ([], Raise e)
        | Ok xs => let '(ys, o) := read_labels do_raise keep_commented rest in (xs ++ ys, o)
        end
    end.
End Reading.

(** ** Annotating *)

(** What one output line shows. *)
Inductive note : Type :=
| Refused (text : cps) (e : option exn)              (* "label: error" *)
| Verdict (label : cps) (disp : option string) (v : set_verdict)  (* "label: disp[ - collision]" *)
| ByRule (i : Z) (a : action)                        (* " Rule i: action" *)
| NotInRepertoire_ (x : N)                           (* " Code point U+X not in repertoire" *)
| BreaksRules (x : N) (rules : list string)          (* " ... does not comply with rules '...'" *)
| SetHeader | SetFooter | SetInvalid (label : cps).

(** ','.join(rules): TypeError when one is None. *)
Fixpoint named_rules (l : list (option string)) : res (list string) :=
  match l with
  | [] => Ok []
  | None :: _ => Raise TypeError
  | Some s :: r => bind (named_rules r) (fun x => Ok (s :: x))
  end.

Fixpoint out_parts (l : list (N * option (list (option string)))) : list note * res unit :=
  match l with
  | [] => ([], Ok tt)
  | (x, reason) :: r =>
      match reason with
      | None => let '(ns, o) := out_parts r in (NotInRepertoire_ x :: ns, o)
      | Some rules =>
          match named_rules rules with
          | Raise e => ([], Raise e)
          | Ok names => let '(ns, o) := out_parts r in (BreaksRules x names :: ns, o)
          end
      end
  end.

(** annotate.py:14-22 _out_valid_label; [acts]: the actions of the LGR given. *)
Definition out_valid_label (acts : list action) (label : cps) (e : elig) (v : set_verdict) : list note * res unit :=
  let first := Verdict label (el_disp e) v in
  if (if el_ok e then false else (0 <? el_idx e)%Z)
  then match nth_error (effective_actions acts) (Z.to_nat (el_idx e)) with
       | None => ([first], Raise IndexError)
       | Some a => let '(ns, o) := out_parts (el_invalid e) in (first :: ByRule (el_idx e) a :: ns, o)
       end
  else let '(ns, o) := out_parts (el_invalid e) in (first :: ns, o).

(** Concatenates the lines of successive labels, up to the first exception. *)
Fixpoint each_reading (f : reading -> list note * res unit) (l : list reading) : list note * res unit :=
  match l with
  | [] => ([], Ok tt)
  | x :: r =>
      let '(ns, o) := f x in
      match o with
      | Raise e => (ns, Raise e)
      | Ok _ => let '(ms, o') := each_reading f r in (ns ++ ms, o')
      end
  end.

Section Annotate.
  Variable decode : cps -> res cps.
  Variable rm : rule_oracle.
  Variable r : repertoire.
  Variable acts : list action.

  (** annotate.py:31-41: the body of the loop. *)
  Definition annotate_reading (x : reading) : list note * res unit :=
    if rd_valid x
    then match test_label_eligible rm r acts (rd_label x) false with
         | Raise e => ([], Raise e)
         | Ok e => out_valid_label acts (rd_label x) e NoCollision
         end
    else ([Refused (rd_label x) (rd_error x)], Ok tt).

  (** annotate.py:25-41 annotate; read_labels does not raise here. *)
  Definition annotate (lines : list cps) : list note * res unit :=
    each_reading annotate_reading (fst (read_labels decode false false lines)).
End Annotate.

Section SetAnnotate.
  Variable decode : cps -> res cps.
  (** The merged LGR and the LGR of the script. *)
  Variable rm srm : rule_oracle.
  Variable r sr : repertoire.
  Variable acts sacts : list action.
  (** Index and variants of a label in the merged LGR. *)
  Variable index : cps -> res cps.
  Variable listing : cps -> list cps -> list (cps * option string) * res unit.

  (** annotate.py:58-66: the labels kept and the lines shown. *)
  Fixpoint filter_set (l : list reading) : list cps * (list note * res unit) :=
    match l with
    | [] => ([], ([], Ok tt))
    | x :: rest =>
        if rd_valid x
        then match preliminary rm r (rd_label x) with
             | None => ([], ([], Raise OutOfFuel))
             | Some p =>
                 let '(kept, (ns, o)) := filter_set rest in
                 if pr_ok p then (rd_label x :: kept, (ns, o))
                 else (kept, (SetInvalid (rd_label x) :: ns, o))
             end
        else let '(kept, (ns, o)) := filter_set rest in (kept, (Refused (rd_label x) (rd_error x) :: ns, o))
    end.

  (** annotate.py:69-97. *)
  Definition set_annotate_reading (filtered : list cps) (x : reading) : list note * res unit :=
    if rd_valid x
    then match test_label_eligible srm sr sacts (rd_label x) false with
         | Raise e => ([], Raise e)
         | Ok e =>
             match (if el_ok e then set_annotation index listing filtered (rd_label x) else Ok NoCollision) with
             | Raise e' => ([], Raise e')
             | Ok v => out_valid_label acts (rd_label x) e v
             end
         end
    else ([Refused (rd_label x) (rd_error x)], Ok tt).

  (** annotate.py:44-97 lgr_set_annotate. *)
  Definition lgr_set_annotate (set_lines lines : list cps) : list note * res unit :=
    let '(kept, (ns, o)) := filter_set (fst (read_labels decode false false set_lines)) in
    match o with
    | Raise e => (SetHeader :: ns, Raise e)
    | Ok _ =>
        let '(ms, o') := each_reading (set_annotate_reading kept) (fst (read_labels decode false false lines)) in
        (SetHeader :: ns ++ SetFooter :: ms, o')
    end.
End SetAnnotate.
