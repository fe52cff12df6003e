(** Model of the command line tools tools/lgr_validate.py and tools/lgr_cli.py.
    No proofs here.

    A line of output is a value that holds what the line shows.  Not modelled:
    the arguments, the files, lgr.validate(options) and the debug log.  A line
    read from the standard input is its code points. *)
From Verif Require Import Base CharModel ActionModel LabelModel CollisionModel AnnotateModel.
Open Scope string_scope.
Open Scope list_scope.

(** ','.join of the rules of a code point at fault; None stands for "not in
    repertoire" (lgr_validate.py:94-96, lgr_cli.py:69-71). *)
Definition faults := list (N * option (list string)).
Fixpoint show_faults (l : list (N * option (list (option string)))) : res faults :=
  match l with
  | [] => Ok []
  | (x, None) :: l' => bind (show_faults l') (fun k => Ok ((x, None) :: k))
  | (x, Some rules) :: l' =>
      bind (named_rules rules) (fun names => bind (show_faults l') (fun k => Ok ((x, Some names) :: k)))
  end.

(** ** lgr_validate.py *)

(** The messages of lgr_validate.py:57, 72, 76 and of utils.py:453, 484. *)
Inductive trouble : Type := ManyIndexes | LabelLost | ManyInSet | ScriptRequired | ScriptUnknown.

Inductive vline : Type :=
| VLabel (l : cps)                       (* 42 *)
| VEligible (b : bool)                   (* 45 *)
| VDisposition (d : option string)       (* 46 *)
| VCollisions                            (* 50 *)
| VInSet                                 (* 52 *)
| VCollides (l : cps)                    (* 80 *)
| VNone                                  (* 82 *)
| VVariants                              (* 85 *)
| VValidPoints (l : cps)                 (* 92 *)
| VInvalidPoints (l : faults)            (* 94 *)
| VTrouble (t : trouble)
| VSetHeader                             (* 114 *)
| VSetRefused (l : cps) (e : option exn) (* 117 *)
| VSetFooter.                            (* 124 *)

(** An LGR as the tools use it: metadata.languages, whether it has a database,
    rules, repertoire, actions, and the scripts of the database. *)
Record tool_lgr : Type := mkTl {
  tl_languages : list string;
  tl_unidb : bool;
  tl_rules : rule_oracle;
  tl_rep : repertoire;
  tl_actions : list action;
  tl_script : N -> string
}.

Section Validate.
  (** The decoder of A-labels. *)
  Variable decode : cps -> res cps.
  (** Order of the elements of a set. *)
  Variable order : list cps -> list cps.
  (** Index and variants of a label in the merged LGR. *)
  Variable index : cps -> res cps.
  Variable listing : cps -> list cps -> list (cps * option string) * res unit.

  (** diff_collisions.py:585-601 get_collisions with the reading of the labels. *)
  Definition collisions_of (texts : list cps) : res ctable :=
    get_collisions index listing
      (order (dedup cps_eqb (map rd_label (filter rd_valid (fst (read_labels decode false false texts))))))
      true [].

  (** lgr_validate.py:51-82; the boolean tells whether check_label goes on. *)
  Definition collision_lines (set_labels : list cps) (label : cps) : list vline * res bool :=
    if memb cps_eqb label set_labels then ([VInSet], Ok true)
    else match collisions_of (set_labels ++ [label]) with
         | Raise e => ([], Raise e)
         | Ok [] => ([VNone], Ok true)
         | Ok [(_, es)] =>
             if existsb (fun e => cps_eqb (ce_cp e) label) es
             then match filter (fun e => memb cps_eqb (ce_cp e) set_labels) es with
                  | [x] => ([VCollides (ce_cp x)], Ok true)
                  | _ => ([VTrouble ManyInSet], Ok false)
                  end
             else ([VTrouble LabelLost], Ok false)
         | Ok _ => ([VTrouble ManyIndexes], Ok false)
         end.

  (** lgr_validate.py:84-90.  Each item of the summary has six parts
      (core.py:1194, 1209, 1242-1244); the loop names five. *)
  Definition variant_lines (g : tool_lgr) (label : cps) : list vline * res unit :=
    match compute_label_disposition (tl_rules g) (tl_rep g) (tl_actions g) (tl_script g) (tl_unidb g)
            label false false false [] with
    | (_, Raise e) => ([VVariants], Raise e)
    | ([], Ok _) => ([VVariants], Ok tt)
    | (_ :: _, Ok _) => ([VVariants], Raise ValueError)
    end.

  (** lgr_validate.py:38-96 check_label; [set_labels] is empty without a set. *)
  Definition check_label (g : tool_lgr) (label : cps) (variants : bool) (set_labels : list cps)
    : list vline * res unit :=
    match test_label_eligible (tl_rules g) (tl_rep g) (tl_actions g) label false with
    | Raise e => ([VLabel label], Raise e)
    | Ok e =>
        let head := [VLabel label; VEligible (el_ok e); VDisposition (el_disp e)] in
        if el_ok e
        then
          let '(ls, go) := match set_labels with
                           | [] => ([], Ok true)
                           | _ => let '(k, b) := collision_lines set_labels label in (VCollisions :: k, b)
                           end in
          match go with
          | Raise x => (head ++ ls, Raise x)
          | Ok true => if variants
                       then let '(vs, o) := variant_lines g label in (head ++ ls ++ vs, o)
                       else (head ++ ls, Ok tt)
          | Ok false => (head ++ ls, Ok tt)
          end
        else
          match el_invalid e with
          | [] => (head ++ [VValidPoints (el_parts e)], Ok tt)
          | inv => match show_faults inv with
                   | Raise x => (head ++ [VValidPoints (el_parts e)], Raise x)
                   | Ok k => (head ++ [VValidPoints (el_parts e); VInvalidPoints k], Ok tt)
                   end
          end
    end.

  (** lgr_validate.py:126-131. *)
  Fixpoint check_all (g : tool_lgr) (variants : bool) (set_labels : list cps) (l : list cps) : list vline * res unit :=
    match l with
    | [] => ([], Ok tt)
    | x :: l' =>
        match check_label g x variants set_labels with
        | (ns, Raise e) => (ns, Raise e)
        | (ns, Ok _) => let '(ms, o) := check_all g variants set_labels l' in (ns ++ ms, o)
        end
    end.

  (** lgr_validate.py:115-123.  The message for a label that is not in the LGR
      is formatted with one value too few. *)
  Fixpoint keep_set (g : tool_lgr) (l : list reading) : list vline * res (list cps) :=
    match l with
    | [] => ([], Ok [])
    | x :: l' =>
        if rd_valid x
        then match preliminary (tl_rules g) (tl_rep g) (rd_label x) with
             | None => ([], Raise OutOfFuel)
             | Some p =>
                 if pr_ok p
                 then match keep_set g l' with
                      | (ns, Ok k) => (ns, Ok (rd_label x :: k))
                      | y => y
                      end
                 else ([], Raise TypeError)
             end
        else let '(ns, k) := keep_set g l' in (VSetRefused (rd_label x) (rd_error x) :: ns, k)
    end.

  (** utils.py:472-485 (and lgr_validate.py:20-35): the last LGR whose first
      language is the script. *)
  Fixpoint choose_script (script : string) (l : list tool_lgr) (found : option tool_lgr) : option tool_lgr :=
    match l with
    | [] => found
    | g :: l' =>
        choose_script script l'
          (match tl_languages g with
           | x :: _ => if String.eqb x script then Some g else found
           | [] => found
           end)
    end.

  (** lgr_validate.py:112-131 with the set. *)
  Definition validate_set (g : tool_lgr) (variants : bool) (set_lines lines : list cps) : list vline * res unit :=
    match keep_set g (fst (read_labels decode false false set_lines)) with
    | (ns, Raise e) => (VSetHeader :: ns, Raise e)
    | (ns, Ok kept) =>
        let '(ms, o) := check_all g variants kept lines in
        (VSetHeader :: ns ++ VSetFooter :: ms, o)
    end.

  (** lgr_validate.py:99-131 main with utils.py:450-493 process_set, once the
      LGRs are read and merged; [script] is the option -s, "" when absent. *)
  Definition validate_tool (lgrs : list tool_lgr) (script : string) (variants : bool)
    (set_lines lines : list cps) : list vline * res unit :=
    match lgrs with
    | [] => ([], Ok tt)
    | [g] => check_all g variants [] lines
    | _ =>
        if String.eqb script "" then ([VTrouble ScriptRequired], Ok tt)
        else match choose_script script lgrs None with
             | None => ([VTrouble ScriptUnknown], Ok tt)
             | Some g => validate_set g variants set_lines lines
             end
    end.
End Validate.

(** ** lgr_cli.py *)

(** lgr_cli.py:29-31 and 57-59: whether the action is said to be a default
    one, and the number shown. *)
Definition shown_action (own : nat) (i : Z) : bool * Z :=
  if (Z.of_nat own <? i)%Z then (true, (i - Z.of_nat own)%Z) else (false, i).

Inductive cline : Type :=
| CValidation (l : cps) (ok : bool)                                            (* 34 *)
| CDisposition (l : cps) (d : option string) (due : bool * Z)                  (* 38 *)
| CVariantLine (l : cps) (types : list string) (d : option string) (due : bool * Z).  (* 62 *)

(** lgr_cli.py:44-65; the types are in the order of the set. *)
Fixpoint cli_variants (own : nat) (l : list listed) : list cline * res unit :=
  match l with
  | [] => ([], Ok tt)
  | z :: l' =>
      match (match ls_invalid z with
             | None | Some [] => Ok tt
             | Some inv => bind (show_faults inv) (fun _ => Ok tt)
             end) with
      | Raise e => ([], Raise e)
      | Ok _ =>
          match named_rules (ls_types z) with
          | Raise e => ([], Raise e)
          | Ok types =>
              let '(ns, o) := cli_variants own l' in
              (CVariantLine (ls_cp z) (dedup String.eqb types) (ls_disp z) (shown_action own (ls_idx z)) :: ns, o)
          end
      end
  end.

(** lgr_cli.py:19-71 check_label with the test option on. *)
Definition cli_label (g : tool_lgr) (invalid : bool) (label : cps) : list cline * res unit :=
  match test_label_eligible (tl_rules g) (tl_rep g) (tl_actions g) label false with
  | Raise e => ([], Raise e)
  | Ok e =>
      let own := length (tl_actions g) in
      let first := CValidation label (el_ok e) in
      if el_ok e
      then
        let second := CDisposition label (el_disp e) (shown_action own (el_idx e)) in
        match compute_label_disposition (tl_rules g) (tl_rep g) (tl_actions g) (tl_script g) (tl_unidb g)
                label invalid false false [] with
        | (_, Raise x) => ([first; second], Raise x)
        | (zs, Ok _) => let '(ns, o) := cli_variants own zs in (first :: second :: ns, o)
        end
      else match show_faults (el_invalid e) with
           | Raise x => ([first], Raise x)
           | Ok _ => ([first], Ok tt)
           end
  end.

(** lgr_cli.py:124-126. *)
Fixpoint cli_all (g : tool_lgr) (invalid : bool) (l : list cps) : list cline * res unit :=
  match l with
  | [] => ([], Ok tt)
  | x :: l' =>
      match cli_label g invalid x with
      | (ns, Raise e) => (ns, Raise e)
      | (ns, Ok _) => let '(ms, o) := cli_all g invalid l' in (ns ++ ms, o)
      end
  end.

(** lgr_cli.py:19-71 and utils.py:325-330: without the test option the same
    is computed and nothing is written. *)
Definition cli_tool (g : tool_lgr) (test invalid : bool) (l : list cps) : list cline * res unit :=
  let '(ns, o) := cli_all g invalid l in (if test then ns else [], o).
