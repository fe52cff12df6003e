(** Vocabulary for the full collision report. *)
From Coq Require Import Sorted.
From Verif Require Import Base AnnotateModel CollisionModel CollisionSpec CollideModel.
Open Scope string_scope.
Open Scope list_scope.

(** A file gives a label: one of its lines is read to it. *)
Definition given (decode : cps -> res cps) (lines : list cps) (l : cps) : Prop :=
  exists r, In r (fst (read_labels decode false false lines)) /\ rd_valid r = true /\ rd_label r = l.

Definition given_tld (decode : cps -> res cps) (tld_lines : option (list cps)) (l : cps) : Prop :=
  match tld_lines with Some f => given decode f l | None => False end.

Section Spec.
  Variable index : cps -> res cps.
  Variable listing : cps -> list cps -> list (cps * option string) * res unit.
  Variables labels tlds : list cps.

  (** What is shown below the index [i]: the labels and TLDs that have it and,
      with a dump ([keep]), their variants. *)
  Definition belongs (keep : bool) (i l : cps) : Prop :=
    has_index index labels tlds i l \/
    keep = true /\ exists p d, has_index index labels tlds i p /\ listed_as listing [] p l d.
  (** Indexes are shown if they have two labels or TLDs or, with a dump, one. *)
  Definition shown (keep : bool) (i : cps) : Prop :=
    exists a, has_index index labels tlds i a /\ (keep = true \/ exists b, b <> a /\ has_index index labels tlds i b).
  Definition kind_below (i l : cps) (c : category) : Prop :=
    has_index index labels tlds i l /\ kind_of_subject labels tlds l c \/
    ~ has_index index labels tlds i l /\ c = CVariant.
End Spec.

(** The header a line stands under. *)
Fixpoint last_index (l : list line) : option cps :=
  match l with
  | [] => None
  | x :: l' => match last_index l' with
               | Some i => Some i
               | None => match x with IndexHeader i => Some i | _ => None end
               end
  end.
Fixpoint last_dump (l : list line) : option cps :=
  match l with
  | [] => None
  | x :: l' => match last_dump l' with
               | Some p => Some p
               | None => match x with DumpHeader p => Some p | _ => None end
               end
  end.
(** How many labels are listed for [p] with a disposition that is [d] in lower
    case. *)
Definition disposed (lower : string -> string) (listing : cps -> list cps -> list (cps * option string) * res unit) (p : cps) (d : string) : nat :=
  length (filter (fun q => match snd q with Some s => String.eqb d (lower s) | None => false end) (fst (listing p []))).
(** The labels on some of the lines. *)
Definition tld_labels (l : list line) : list cps := flat_map (fun x => match x with IsTld a => [a] | _ => [] end) l.
Definition missing_labels (l : list line) : list cps := flat_map (fun x => match x with IsMissing a => [a] | _ => [] end) l.
Definition headers (l : list line) : list cps := flat_map (fun x => match x with IndexHeader i => [i] | _ => [] end) l.
Definition refusals (l : list line) : list (cps * option exn) := flat_map (fun x => match x with BadLabel a e => [(a, e)] | _ => [] end) l.
Definition tld_refusals (l : list line) : list (cps * option exn) := flat_map (fun x => match x with BadTld a e => [(a, e)] | _ => [] end) l.
Definition refused_in (decode : cps -> res cps) (lines : list cps) : list (cps * option exn) :=
  map (fun r => (rd_label r, rd_error r)) (filter (fun r => negb (rd_valid r)) (fst (read_labels decode false false lines))).
Definition ascending (l : list cps) : Prop := StronglySorted (fun a b => cps_leb a b = true) l /\ NoDup l.
