(** Vocabulary for the report that compares two LGRs on a list of labels. *)
From Coq Require Import Permutation.
From Verif Require Import Base CollisionModel CollisionSpec CollideModel CollideSpec DiffRepModel.
Open Scope string_scope.
Open Scope list_scope.

(** What is said of a label: changed dispositions (kind, label, in the second LGR, in
    the first), labels listed by the second LGR only, by the first only. *)
Record said : Type := mkSaid {
  sa_changed : list (category * cps * option string * option string);
  sa_added : list (category * cps);
  sa_removed : list (category * cps)
}.
Definition or_say {A B} (f : A -> B) (l : list A) (none : B) : list B := match l with [] => [none] | _ => map f l end.
Definition block (say : cps -> said) (l : cps) : list rline :=
  RLabel l :: RDispositions ::
    or_say (fun q => match q with (c, v, b, a) => RChanged c v b a end) (sa_changed (say l)) RNoChange ++
  RNumber ::
    or_say (fun x => x) (map (fun q => RAdded (fst q) (snd q)) (sa_added (say l)) ++ map (fun q => RRemoved (fst q) (snd q)) (sa_removed (say l))) RSameNumber.

(** The labels that are in one of the LGRs only, and those in none. *)
Definition missing_part (m1 m2 : list cps) : list rline :=
  if (Nat.eqb (length m1) 0 && Nat.eqb (length m2) 0)%bool then []
  else RMissingHeader false :: map RMissing m1 ++ RMissingHeader true :: map RMissing m2.

(** The collisions of an LGR: the pairs, and the dump if asked for. *)
Definition collision_part (second show_dump : bool) (s d : list line) : list rline :=
  RCollisions second :: map RFound s ++ (if show_dump then RSummary second :: map RFound d else []).

Section Two.
  Variables index1 index2 : cps -> res cps.
  Variables listing1 listing2 : cps -> list cps -> list (cps * option string) * res unit.
  Variable labels : list cps.

  Definition in_both (l : cps) : Prop := In l labels /\ (exists i, index1 l = Ok i) /\ (exists i, index2 l = Ok i).
  Definition lists (listing : cps -> list cps -> list (cps * option string) * res unit) (l v : cps) : Prop :=
    exists d, listed_as listing [] l v d.
  (** A given label with the same index, or a variant. *)
  Definition kind_in (index : cps -> res cps) (l v : cps) (c : category) : Prop :=
    exists i, index l = Ok i /\ kind_below index labels [] i v c.

  Definition says_right (l : cps) (s : said) : Prop :=
    NoDup (map (fun q => snd (fst (fst q))) (sa_changed s)) /\
    NoDup (map snd (sa_added s)) /\ NoDup (map snd (sa_removed s)) /\
    (forall c v b a, In (c, v, b, a) (sa_changed s) <->
       listed_as listing1 [] l v a /\ listed_as listing2 [] l v b /\ a <> b /\ kind_in index2 l v c) /\
    (forall c v, In (c, v) (sa_added s) <-> lists listing2 l v /\ ~ lists listing1 l v /\ kind_in index2 l v c) /\
    (forall c v, In (c, v) (sa_removed s) <-> lists listing1 l v /\ ~ lists listing2 l v /\ kind_in index1 l v c).

  (** The labels listed for one of the given labels with some index are listed for
      each of them. *)
  Definition agreeing (index : cps -> res cps) (listing : cps -> list cps -> list (cps * option string) * res unit) (l : cps) : Prop :=
    forall i v, index l = Ok i -> belongs index listing labels [] true i v -> lists listing l v.
  (** The same, with a disposition. *)
  Definition disposing (index : cps -> res cps) (listing : cps -> list cps -> list (cps * option string) * res unit) (l : cps) : Prop :=
    forall i v, index l = Ok i -> belongs index listing labels [] true i v -> exists d, listed_as listing [] l v (Some d).
  Definition answers (index : cps -> res cps) (listing : cps -> list cps -> list (cps * option string) * res unit) (l : cps) : Prop :=
    settled index l /\ forall i, index l = Ok i -> snd (listing l []) = Ok tt.
End Two.

(** The pairs shown for an LGR, below the indexes of its labels. *)
Definition pairs_right (index : cps -> res cps) (listing : cps -> list cps -> list (cps * option string) * res unit) (labels : list cps) (s : list line) : Prop :=
  NoDup (headers s) /\ (forall i, In i (headers s) <-> exists l, In l labels /\ index l = Ok i) /\
  (forall pre post f a ca b cb, s = pre ++ Pair f a ca b cb :: post ->
     exists i, last_index pre = Some i /\ a <> b /\ In a labels /\ In b labels /\
       belongs index listing labels [] true i a /\ belongs index listing labels [] true i b /\
       kind_below index labels [] i a ca /\ kind_below index labels [] i b cb /\ f = false) /\
  (forall i a b, a <> b -> In a labels -> In b labels -> belongs index listing labels [] true i a -> belongs index listing labels [] true i b ->
     exists pre post f ca cb, last_index pre = Some i /\ (s = pre ++ Pair f a ca b cb :: post \/ s = pre ++ Pair f b ca a cb :: post)) /\
  (In NoneHere s <-> ~ exists i a b, a <> b /\ In a labels /\ In b labels /\
     belongs index listing labels [] true i a /\ belongs index listing labels [] true i b).

(** What the collision report of the LGR alone shows below its heading, for the same
    lines in some order. *)
Definition as_alone (lower : string -> string) (decode : cps -> res cps) (index : cps -> res cps)
  (listing : cps -> list cps -> list (cps * option string) * res unit) (order : list cps -> list cps)
  (lines : list cps) (show_dump quiet : bool) (s d : list line) : Prop :=
  exists lines' start r, Permutation lines lines' /\ ~ In CollisionsHeader start /\
    collision lower decode index listing order lines' None true quiet = (start ++ CollisionsHeader :: s ++ SummaryHeader :: d, r) /\
    (show_dump = true -> r = Ok tt).
