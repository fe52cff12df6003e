(** Model of the short collision report, lgr/tools/diff_collisions.py:327-346
    (_write_simple_output), 460-471 (_read_tlds) and 522-582 (basic_collision).
    No proofs here.

    What the lines show is modelled, not how they are formatted.  The input
    files are lists of lines, which the annotation (536) reads from a copy.
    [order] is the order of a Python set. *)
From Verif Require Import Base CharModel ActionModel LabelModel AnnotateModel CollisionModel CollideModel.
Open Scope list_scope.

Inductive bline : Type :=
| ValidityTitle | Annotation (n : note) | Gap
| TldError (l : cps) (e : option exn)
| CollisionsTitle | IsATld (l : cps)
| WithLabel (a b : cps) | WithTld (a b : cps)
| NoCollisionHere
| ErrorsTitle | LabelError (l : cps) (e : option exn) | LabelMissing (l : cps).

(** diff_collisions.py:335-346: the lines of one index. *)
Definition simple_group (order : list cps -> list cps) (labels tlds : list cps) (es : list centry) : list bline :=
  let ls := order (filter (fun x => memb cps_eqb x (map ce_cp es)) labels) in
  let ts := order (filter (fun x => memb cps_eqb x (map ce_cp es)) tlds) in
  (if Nat.ltb 1 (length ls) then map (fun p => WithLabel (fst p) (snd p)) (dump_collisions ls None) else [])
  ++ (match ts with [] => [] | _ => map (fun p => WithTld (fst p) (snd p)) (dump_collisions ls (Some ts)) end).
(** diff_collisions.py:327-346 _write_simple_output. *)
Definition simple_lines (order : list cps -> list cps) (labels tlds : list cps) (t : ctable) : list bline :=
  flat_map (simple_group order labels tlds) (dvals t).

Section Report.
  Variable decode : cps -> res cps.
  Variable rm : rule_oracle.
  Variable r : repertoire.
  Variable acts : list action.
  Variable index : cps -> res cps.
  Variable listing : cps -> list cps -> list (cps * option string) * res unit.
  Variable order : list cps -> list cps.

  (** diff_collisions.py:548-582: the report once the files are read.  An empty
      list of TLDs is not looked at (554), which shows nothing either. *)
  Definition basic_body (readings tld_readings : list reading) : list bline * res unit :=
    let labels := order (valid_labels readings) in
    let tlds := order (valid_labels tld_readings) in
    let in_tld := map IsATld (isort cps_leb (filter (fun l => memb cps_eqb l tlds) labels)) in
    let start := map (fun x => TldError (rd_label x) (rd_error x)) (filter (fun x => negb (rd_valid x)) tld_readings)
                 ++ CollisionsTitle :: in_tld in
    match generate_indexes index listing labels tlds false true [] with
    | Raise e => (start, Raise e)
    | Ok (t, missing) =>
        let found := simple_lines order labels tlds t in
        let errors := map (fun x => LabelError (rd_label x) (rd_error x)) (filter (fun x => negb (rd_valid x)) readings) in
        let absent := map LabelMissing (isort cps_leb missing) in
        (start ++ found
           ++ (match in_tld ++ found with [] => [NoCollisionHere] | _ => [] end)
           ++ (match errors ++ absent with [] => [] | l => ErrorsTitle :: l end), Ok tt)
    end.

  (** diff_collisions.py:522-582 basic_collision.  Without TLDs, None is iterated
      over (548, utils.py:50): TypeError, whatever is given. *)
  Definition basic_report (lines : list cps) (tld_lines : option (list cps)) (with_annotations : bool) : list bline * res unit :=
    let rest :=
      match tld_lines with
      | None => ([], Raise TypeError)
      | Some f => basic_body (fst (read_labels decode false false lines)) (fst (read_labels decode false false f))
      end in
    if with_annotations
    then match annotate decode rm r acts lines with
         | (ns, Raise e) => (ValidityTitle :: map Annotation ns, Raise e)
         | (ns, Ok _) => (ValidityTitle :: map Annotation ns ++ Gap :: fst rest, snd rest)
         end
    else rest.
End Report.
