(** Specification vocabulary for collisions. *)
From Coq Require Import Permutation.
From Verif Require Import Base CollisionModel.
Open Scope string_scope.
Open Scope list_scope.

Section Spec.
  Variable index : cps -> res cps.
  Variable listing : cps -> list cps -> list (cps * option string) * res unit.

  Definition not_in_lgr (l : cps) : Prop := exists x, index l = Raise (NotInLGR x).
  (** The index can be computed, or the label is not in the LGR. *)
  Definition settled (l : cps) : Prop := (exists i, index l = Ok i) \/ not_in_lgr l.
  (** Two different labels with the same index. *)
  Definition collide (a b : cps) : Prop := a <> b /\ exists i, index a = Ok i /\ index b = Ok i.
  (** The listing of a label succeeds, and lists no label twice. *)
  Definition well_listed (ws : list cps) (l : cps) : Prop :=
    snd (listing l ws) = Ok tt /\ NoDup (map fst (fst (listing l ws))).
  Definition listed_as (ws : list cps) (p v : cps) (d : option string) : Prop := In (v, d) (fst (listing p ws)).
End Spec.

Definition reorders (order : list cps -> list cps) : Prop := forall l, Permutation l (order l).

(** The entry of a label. *)
Definition entry_for (es : list centry) (x : cps) : option centry := find (fun e => cps_eqb (ce_cp e) x) es.

Section Found.
  Variable index : cps -> res cps.
  Variable listing : cps -> list cps -> list (cps * option string) * res unit.
  Variables labels tlds : list cps.
  Definition subject (l : cps) : Prop := In l labels \/ In l tlds.
  (** Members of the group of an index. *)
  Definition has_index (i l : cps) : Prop := subject l /\ index l = Ok i.
  Definition kind_of_subject (l : cps) (c : category) : Prop :=
    (In l labels /\ c = CPrimary) \/ (~ In l labels /\ In l tlds /\ c = CTld).
End Found.
(** The listing shows the label and, if labels are given, only these. *)
Definition obedient (listing : cps -> list cps -> list (cps * option string) * res unit) : Prop :=
  (forall l ws, NoDup (map fst (fst (listing l ws)))) /\
  (forall l ws v d, ws <> [] -> In (v, d) (fst (listing l ws)) -> In v ws \/ v = l).
(** A successful listing of a label contains the label itself. *)
Definition shows_itself (listing : cps -> list cps -> list (cps * option string) * res unit) : Prop :=
  forall l ws, snd (listing l ws) = Ok tt -> In l (map fst (fst (listing l ws))).
