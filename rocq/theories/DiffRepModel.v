(** Model of lgr/tools/diff_collisions.py:147-205 (_compare) and 385-457 (diff) line
    by line, and of tools/lgr_diff_collisions.py.  No proofs here.

    What the lines show is modelled, not how they are formatted; neither are the
    rule logs.  [order] is the order of a Python set, the same throughout a run.
    [false] stands for the first LGR and [true] for the second. *)
From Verif Require Import Base AnnotateModel CollisionModel CollideModel.
Open Scope string_scope.
Open Scope list_scope.

Inductive rline : Type :=
| RBad (l : cps) (e : option exn)
| RMissingHeader (second : bool)
| RMissing (l : cps)
| RComparison
| RNotIn (second : bool) (l : cps)
| RLabel (l : cps)
| RDispositions
| RChanged (c : category) (v : cps) (d2 d1 : option string)
| RNoChange
| RNumber
(** "New ... in LGR2" and "Removed ... in LGR2". *)
| RAdded (c : category) (v : cps)
| RRemoved (c : category) (v : cps)
| RSameNumber
| RCollisions (second : bool)
| RSummary (second : bool)
| RFound (x : line).

(** A generator that goes on unless it raised. *)
Definition goes_on (a b : list rline * res unit) : list rline * res unit :=
  match a with
  | (l, Ok _) => (l ++ fst b, snd b)
  | x => x
  end.
Fixpoint in_turn {A} (f : A -> list rline * res unit) (l : list A) : list rline * res unit :=
  match l with
  | [] => ([], Ok tt)
  | x :: l' => goes_on (f x) (in_turn f l')
  end.

(** diff_collisions.py:159-169: the entries of the second LGR, each with those of the
    first for the same label. *)
Definition same_labels (es1 es2 : list centry) : list (centry * centry) :=
  flat_map (fun e2 => map (fun e1 => (e2, e1)) (filter (fun e1 => cps_eqb (ce_cp e1) (ce_cp e2)) es1)) es2.
Definition changed_lines (label : cps) (es1 es2 : list centry) : list rline * res unit :=
  in_turn (fun q => match compare_labels label (snd q) (fst q) with
                    | Raise e => ([], Raise e)
                    | Ok None => ([], Ok tt)
                    | Ok (Some (d2, d1)) => ([RChanged (ce_cat (fst q)) (ce_cp (fst q)) d2 d1], Ok tt)
                    end) (same_labels es1 es2).
(** 157-173: [ret] is False once a line was shown. *)
Definition disposition_lines (label : cps) (es1 es2 : list centry) : list rline * res unit :=
  match changed_lines label es1 es2 with
  | ([], Ok _) => ([RNoChange], Ok tt)
  | x => x
  end.
(** 179-189 and 190-200: the line comes before its rules are looked up. *)
Definition variant_number (label : cps) (f : category -> cps -> rline) (es : list centry) : list rline * res unit :=
  in_turn (fun e => ([f (ce_cat e) (ce_cp e)], if has_disp label e then Ok tt else Raise LGRException)) es.
(** 175-205 *)
Definition number_lines (label : cps) (es1 es2 : list centry) : list rline * res unit :=
  let added := new_variants es2 es1 in
  let removed := new_variants es1 es2 in
  goes_on (variant_number label RAdded added)
    (goes_on (variant_number label RRemoved removed)
       (match added, removed with [], [] => ([RSameNumber], Ok tt) | _, _ => ([], Ok tt) end)).
(** 147-205 _compare, for one label. *)
Definition compare_lines (t1 t2 : ctable) (x : cps * (cps * cps)) : list rline * res unit :=
  goes_on ([RLabel (fst x); RDispositions], Ok tt)
    (match dget cps_eqb (snd (snd x)) t2, dget cps_eqb (fst (snd x)) t1 with
     | Some es2, Some es1 =>
         goes_on (disposition_lines (fst x) es1 es2)
           (goes_on ([RNumber], Ok tt) (number_lines (fst x) es1 es2))
     | _, _ => ([], Raise (KeyErrorCp 0))
     end).

Section Diff.
  Variable lower : string -> string.
  Variable decode : cps -> res cps.
  Variable order : list cps -> list cps.
  (** generate_index_label and compute_label_disposition of the two LGRs. *)
  Variables index1 index2 : cps -> res cps.
  Variables listing1 listing2 : cps -> list cps -> list (cps * option string) * res unit.

  (** 424-438: the lines, and labels_dic. *)
  Fixpoint with_indexes (labels : list cps) : list rline * res (list (cps * (cps * cps))) :=
    match labels with
    | [] => ([], Ok [])
    | l :: labels' =>
        match index1 l with
        | Raise (NotInLGR _) => let '(o, d) := with_indexes labels' in (RNotIn false l :: o, d)
        | Raise e => ([], Raise e)
        | Ok i1 =>
            match index2 l with
            | Raise (NotInLGR _) => let '(o, d) := with_indexes labels' in (RNotIn true l :: o, d)
            | Raise e => ([], Raise e)
            | Ok i2 => let '(o, d) := with_indexes labels' in (o, bind d (fun d => Ok ((l, (i1, i2)) :: d)))
            end
        end
    end.

  (** 416-421 *)
  Definition missing_lines (m1 m2 : list cps) : list rline :=
    match m1, m2 with
    | [], [] => []
    | _, _ => RMissingHeader false :: map RMissing m1 ++ RMissingHeader true :: map RMissing m2
    end.
  (** 444-450 and 451-457: the collisions of an LGR. *)
  Definition found (o : list line * res unit) : list rline * res unit := (map RFound (fst o), snd o).
  Definition collision_lines (second show_dump : bool) (labels : list cps) (t : ctable) : list rline * res unit :=
    goes_on (RCollisions second :: map RFound (complete_output labels [] t), Ok tt)
      (if show_dump then goes_on ([RSummary second], Ok tt) (found (dump_lines lower t)) else ([], Ok tt)).

  (** diff_collisions.py:385-457 diff *)
  Definition diff (lines : list cps) (show_collision show_dump quiet : bool) : list rline * res unit :=
    let readings := fst (read_labels decode false false lines) in
    let labels := order (valid_labels readings) in
    let start := map (fun x => RBad (rd_label x) (rd_error x)) (filter (fun x => negb (rd_valid x)) readings) in
    match generate_indexes index1 listing1 labels [] true quiet [] with
    | Raise e => (start, Raise e)
    | Ok (t1, m1) =>
        match generate_indexes index2 listing2 labels [] true quiet [] with
        | Raise e => (start, Raise e)
        | Ok (t2, m2) =>
            let '(o, d) := with_indexes labels in
            goes_on (start ++ missing_lines m1 m2 ++ RComparison :: o, bind d (fun _ => Ok tt))
              (match d with
               | Raise e => ([], Raise e)
               | Ok d =>
                   goes_on (in_turn (compare_lines t1 t2) d)
                     (if show_collision
                      then goes_on (collision_lines false show_dump labels t1) (collision_lines true show_dump labels t2)
                      else ([], Ok tt))
               end)
        end
    end.
End Diff.

(** What the tool needs of an LGR. *)
Record diff_lgr : Type := mkDiffLgr {
  dl_decode : cps -> res cps;
  dl_index : cps -> res cps;
  dl_listing : cps -> list cps -> list (cps * option string) * res unit
}.
(** What it prints, and the errors it logs. *)
Inductive tline : Type :=
| TOnlyCollisions
| TRefused (second : bool)
| TDiff (x : rline)
| TCollision (x : line).

(** tools/lgr_diff_collisions.py:42-66: what parse_lgr gives for the files, the lines
    of the label file, and the options.  An LGR is true: it has no length. *)
Definition diff_tool (lower : string -> string) (order : list cps -> list cps)
  (first : res (option diff_lgr)) (second : option (res (option diff_lgr)))
  (lines : list cps) (generate no_rules : bool) : list tline * res unit :=
  match first with
  | Raise e => ([], Raise e)
  | Ok lgr1 =>
      match second with
      | Some (Raise e) => ([], Raise e)
      | Some (Ok lgr2) =>
          match lgr1, lgr2 with
          | None, _ => ([TRefused false], Ok tt)
          | Some _, None => ([TRefused true], Ok tt)
          | Some a, Some b =>
              let '(o, r) := diff lower (dl_decode a) order (dl_index a) (dl_index b) (dl_listing a) (dl_listing b) lines true generate no_rules in
              (map TDiff o, r)
          end
      | None =>
          match lgr1 with
          | None => ([TOnlyCollisions; TRefused false], Ok tt)
          | Some a =>
              let '(o, r) := collision lower (dl_decode a) (dl_index a) (dl_listing a) order lines None generate no_rules in
              (TOnlyCollisions :: map TCollision o, r)
          end
      end
  end.
