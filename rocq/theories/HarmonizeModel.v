(** Model of lgr/tools/harmonize.py.  No proofs here.

    The function works on copies (_copy) unless it calls itself, so only the
    LGRs returned are observable: a failure is just the exception.  Metadata is
    left out but for the comment of the version. *)
From Verif Require Import Base CharModel LgrModel PopulateModel CompareModel ValidateModel.
Open Scope string_scope.
Open Scope list_scope.

Definition finished (x : lgr * res unit) : res lgr := match x with (g, Ok _) => Ok g | (_, Raise e) => Raise e end.

(** harmonize.py:63-67, 75-79: a code point from outside, mapped to itself. *)
Definition add_outside (g : lgr) (v : cps) : lgr * res unit :=
  andthen (lgr_add_cp g v (Some "Out-of-repertoire") [] [] None None None false false) (fun g1 =>
  put_variant g1 v v (Some "out-of-repertoire") None None (Some "Out-of-repertoire") []).
(** harmonize.py:62-72, 74-84: one variant of [c] that the other LGR has. *)
Definition carry (g : lgr) (c v : cps) : lgr * res unit :=
  match rep_contains (lg_rep g) v with
  | Raise e => (g, Raise e)
  | Ok false => andthen (add_outside g v) (fun g1 => put_variant g1 c v blocked None None None [])
  | Ok true => if cps_eqb v c then (g, Ok tt) else put_variant g c v blocked None None None []
  end.
Fixpoint carry_all (g : lgr) (c : cps) (vs : list cps) : lgr * res unit :=
  match vs with
  | [] => (g, Ok tt)
  | v :: vs' => andthen (carry g c v) (fun g1 => carry_all g1 c vs')
  end.

Section Order.
  (** Order in which the elements of a set come. *)
  Variable order : list cps -> list cps.

  (** harmonize.py:54-84: one common code point. *)
  Definition share (g1 g2 : lgr) (c : cps) : res (lgr * lgr) :=
    bind (lgr_get_char g1 c) (fun ch1 => bind (lgr_get_char g2 c) (fun ch2 =>
    let v1 := map v_cp (get_variants ch1) in
    let v2 := map v_cp (get_variants ch2) in
    bind (finished (carry_all g2 c (order (set_diff cps_eqb v1 v2)))) (fun g2' =>
    bind (finished (carry_all g1 c (order (set_diff cps_eqb v2 v1)))) (fun g1' => Ok (g1', g2'))))).
  Fixpoint share_all (g1 g2 : lgr) (cs : list cps) : res (lgr * lgr) :=
    match cs with
    | [] => Ok (g1, g2)
    | c :: cs' => bind (share g1 g2 c) (fun p => share_all (fst p) (snd p) cs')
    end.

  (** harmonize.py:49-92: two LGRs without ranges; the last component is what
      is left for review. *)
  Definition harmonize_expanded (g1 g2 : lgr) : res (lgr * lgr * (list cps * list cps)) :=
    let rep1 := map ch_cp (rep_iter (lg_rep g1)) in
    let rep2 := map ch_cp (rep_iter (lg_rep g2)) in
    bind (share_all g1 g2 (order (set_inter cps_eqb rep2 rep1))) (fun p =>
    bind (finished (populate (fst p))) (fun h1 =>
    bind (finished (populate (snd p))) (fun h2 =>
    Ok (h1, h2, (set_diff cps_eqb rep1 rep2, set_diff cps_eqb rep2 rep1))))).
  Definition harmonize_two (g1 g2 : lgr) : res (lgr * lgr * (list cps * list cps)) :=
    bind (finished (lgr_expand_ranges g1)) (fun e1 =>
    bind (finished (lgr_expand_ranges g2)) (fun e2 => harmonize_expanded e1 e2)).

  (** harmonize.py:35-92, once the copies are made (32-33, 44, 46). *)
  Definition harmonize_copies (g1 g2 : lgr) (root : option lgr) : res (lgr * lgr * (list cps * list cps)) :=
    bind (finished (lgr_expand_ranges g1)) (fun e1 =>
    bind (finished (lgr_expand_ranges g2)) (fun e2 =>
    match root with
    | None => harmonize_expanded e1 e2
    | Some z => bind (harmonize_two e1 z) (fun p => bind (harmonize_two e2 z) (fun q =>
                  harmonize_expanded (fst (fst p)) (fst (fst q))))
    end)).
  (** harmonize.py:15-92 harmonize.  A deep copy of an LGR is built from its
      state, which leaves out the database (core.py:144-160). *)
  Definition harmonize (g1 g2 : lgr) (root : option lgr) : res (lgr * lgr * (list cps * list cps)) :=
    harmonize_copies (lgr_copy g1) (lgr_copy g2) (option_map lgr_copy root).
End Order.

(** harmonize.py:38-40: [comment or '' + ' - Harmonized']. *)
Definition harmonized_comment (comment : option string) : option string :=
  if truthy comment then comment else Some ("" ++ " - Harmonized")%string.
