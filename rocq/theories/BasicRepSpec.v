(** Vocabulary for the short collision report. *)
From Coq Require Import Sorted.
From Verif Require Import Base AnnotateModel CollisionModel CollisionSpec CollideSpec BasicRepModel.
Open Scope list_scope.

(** The sections of the report, in order. *)
Definition section_of (x : bline) : nat :=
  match x with
  | ValidityTitle => 0 | Annotation _ => 1 | Gap => 2 | TldError _ _ => 3
  | CollisionsTitle => 4 | IsATld _ => 5 | WithLabel _ _ => 6 | WithTld _ _ => 6 | NoCollisionHere => 7
  | ErrorsTitle => 8 | LabelError _ _ => 9 | LabelMissing _ => 10
  end%nat.
Definition in_sections (l : list bline) : Prop := StronglySorted (fun a b => (section_of a <= section_of b)%nat) l.

(** What some of the lines show, in their order. *)
Definition notes_shown (l : list bline) : list note := flat_map (fun x => match x with Annotation n => [n] | _ => [] end) l.
Definition tlds_shown (l : list bline) : list cps := flat_map (fun x => match x with IsATld a => [a] | _ => [] end) l.
Definition missing_shown (l : list bline) : list cps := flat_map (fun x => match x with LabelMissing a => [a] | _ => [] end) l.
Definition errors_shown (l : list bline) : list (cps * option exn) := flat_map (fun x => match x with LabelError a e => [(a, e)] | _ => [] end) l.
Definition tld_errors_shown (l : list bline) : list (cps * option exn) := flat_map (fun x => match x with TldError a e => [(a, e)] | _ => [] end) l.
