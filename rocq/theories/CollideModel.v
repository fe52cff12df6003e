(** Model of the full collision report, lgr/tools/diff_collisions.py:280-324
    (_write_complete_output), 349-381 (_full_dump), 460-471 (_read_tlds) and
    474-519 (collision).  No proofs here.

    What the lines show is modelled, not how they are formatted; neither are the
    rule logs.  [lower] is str.lower, [order] the order of a Python set. *)
From Verif Require Import Base AnnotateModel CollisionModel.
Open Scope string_scope.
Open Scope list_scope.

Inductive line : Type :=
| BadLabel (l : cps) (e : option exn)
| BadTld (l : cps) (e : option exn)
| TldsHeader | IsTld (l : cps)
| MissingHeader | IsMissing (l : cps)
| CollisionsHeader
| IndexHeader (i : cps)
(** [existing]: "Collision within the existing TLDs", else "input file". *)
| Pair (existing : bool) (a : cps) (ca : category) (b : cps) (cb : category)
| NoneHere
| SummaryHeader
| DumpHeader (l : cps)
| DumpVariant (c : category) (l : cps)
| DumpDisposition (d : option string)
| CountHeader
| Count (d : string) (n : nat).

(** A generator that goes on unless it raised. *)
Definition continue (a : list line * res unit) (b : list line * res unit) : list line * res unit :=
  match a with
  | (l, Ok _) => (l ++ fst b, snd b)
  | x => x
  end.
Fixpoint each {A} (f : A -> list line * res unit) (l : list A) : list line * res unit :=
  match l with
  | [] => ([], Ok tt)
  | x :: l' => continue (f x) (each f l')
  end.

(** diff_collisions.py:293-302 print_collision; the labels of an index are
    distinct, so that entries are compared by their labels. *)
Definition category_in (es : list centry) (l : cps) : category :=
  match find (fun e => cps_eqb (ce_cp e) l) es with Some e => ce_cat e | None => CVariant end.
Definition is_tld (c : category) : bool := match c with CTld => true | _ => false end.
Definition show_pair (es : list centry) (p : cps * cps) : line :=
  let ca := category_in es (fst p) in
  let cb := category_in es (snd p) in
  Pair (is_tld ca || is_tld cb) (fst p) ca (snd p) cb.

(** diff_collisions.py:308-319: the lines of an index. *)
Definition among (l : list cps) (es : list centry) : list cps := filter (fun x => memb cps_eqb x l) (map ce_cp es).
Definition index_lines (labels tlds : list cps) (q : cps * list centry) : list line :=
  let es := snd q in
  let ls := among labels es in
  let ts := among tlds es in
  IndexHeader (fst q)
    :: (if Nat.ltb 1 (length ls) then map (show_pair es) (dump_collisions ls None) else [])
    ++ (match ts with [] => [] | _ => map (show_pair es) (dump_collisions ls (Some ts)) end).
(** diff_collisions.py:280-324 _write_complete_output *)
Definition complete_output (labels tlds : list cps) (t : ctable) : list line :=
  flat_map (index_lines labels tlds) t
    ++ (if existsb (fun q => Nat.ltb 1 (length (among labels (snd q)))) t then [] else [NoneHere]).

Section Report.
  Variable lower : string -> string.

  (** Counter(l).most_common(): by decreasing count, then by first occurrence. *)
  Definition occurrences (d : string) (l : list string) : nat := length (filter (String.eqb d) l).
  Definition most_common (l : list string) : list (string * nat) :=
    isort (fun a b => Nat.leb (snd b) (snd a)) (map (fun d => (d, occurrences d l)) (dedup String.eqb l)).

  (** diff_collisions.py:355-381: one label of the dump; InvalidSymmetry is
      LGRException here, and the AttributeError of None.lower() TypeError. *)
  Definition dump_variants (es : list centry) (p : cps) : list line * res unit :=
    each (fun e => if cps_eqb (ce_cp e) p then ([], Ok tt)
                   else match dget cps_eqb p (ce_disp e) with
                        | Some d => ([DumpVariant (ce_cat e) (ce_cp e); DumpDisposition d], Ok tt)
                        | None => ([DumpVariant (ce_cat e) (ce_cp e)], Raise LGRException)
                        end) es.
  Definition dump_counts (es : list centry) (p : cps) : list line * res unit :=
    match mapM_res (fun e => match dget cps_eqb p (ce_disp e) with
                             | Some (Some d) => Ok (lower d)
                             | Some None => Raise TypeError
                             | None => Raise LGRException
                             end) es with
    | Ok ds => (CountHeader :: map (fun x => Count (fst x) (snd x)) (most_common ds), Ok tt)
    | Raise e => ([CountHeader], Raise e)
    end.
  Definition dump_label (es : list centry) (p : cps) : list line * res unit :=
    continue ([DumpHeader p], Ok tt) (continue (dump_variants es p) (dump_counts es p)).
  (** diff_collisions.py:349-381 _full_dump *)
  Definition dump_lines (t : ctable) : list line * res unit :=
    each (fun es => each (fun e => dump_label es (ce_cp e))
                      (filter (fun e => match ce_cat e with CPrimary => true | _ => false end) es)) (dvals t).

  Variable decode : cps -> res cps.
  Variable index : cps -> res cps.
  Variable listing : cps -> list cps -> list (cps * option string) * res unit.
  Variable order : list cps -> list cps.

  Definition valid_labels (l : list reading) : list cps := dedup cps_eqb (map rd_label (filter rd_valid l)).
  Definition refused (f : cps -> option exn -> line) (l : list reading) : list line :=
    map (fun x => f (rd_label x) (rd_error x)) (filter (fun x => negb (rd_valid x)) l).

  (** diff_collisions.py:474-519 collision *)
  Definition collision (lines : list cps) (tld_lines : option (list cps)) (show_dump quiet : bool) : list line * res unit :=
    let readings := fst (read_labels decode false false lines) in
    let labels := valid_labels readings in
    let tld_readings := match tld_lines with Some l => fst (read_labels decode false false l) | None => [] end in
    let tlds := order (valid_labels tld_readings) in
    let in_tld := filter (fun l => memb cps_eqb l tlds) labels in
    let start := refused BadLabel readings ++ refused BadTld tld_readings
      ++ (match in_tld with [] => [] | _ => TldsHeader :: map IsTld (isort cps_leb in_tld) end) in
    match generate_indexes index listing labels tlds show_dump quiet [] with
    | Raise e => (start, Raise e)
    | Ok (t, missing) =>
        continue (start ++ (match missing with [] => [] | _ => MissingHeader :: map IsMissing (isort cps_leb missing) end)
                    ++ CollisionsHeader :: complete_output labels tlds t, Ok tt)
          (if show_dump then continue ([SummaryHeader], Ok tt) (dump_lines t) else ([], Ok tt))
    end.
End Report.
