(** What the metadata of a merged set should be. *)
From Coq Require Import Permutation.
From Verif Require Import Base UtilsModel MetaModel MetaSpec CompareSpec.
Open Scope string_scope.
Open Scope list_scope.

(** [x] is met in [l] before any [y]. *)
Definition met_first {A} (x y : A) (l : list A) : Prop := exists a b, l = a ++ x :: b /\ ~ In x a /\ ~ In y a.
(** [r] has each element of [l] once, in the order in which they are first met. *)
Definition firsts {A} (l r : list A) : Prop :=
  NoDup r /\ (forall x, In x r <-> In x l) /\ (forall x y, x <> y -> (met_first x y r <-> met_first x y l)).

(** [s] is the texts of [l] with [sep] between one and the next. *)
Inductive glued (sep : cps) : list cps -> cps -> Prop :=
| Glued_none : glued sep [] []
| Glued_one : forall x, glued sep [x] x
| Glued_more : forall x y l s, glued sep (y :: l) s -> glued sep (x :: y :: l) (x ++ sep ++ s).

(** The greatest and the least of the values given, if any, as texts. *)
Definition greatest (l : list (option cps)) (r : option cps) : Prop :=
  match r with
  | None => forall o, In o l -> o = None
  | Some z => In (Some z) l /\ forall x, In (Some x) l -> not_after x z
  end.
Definition least (l : list (option cps)) (r : option cps) : Prop :=
  match r with
  | None => forall o, In o l -> o = None
  | Some z => In (Some z) l /\ forall x, In (Some x) l -> not_after z x
  end.

(** What the members say, one after the other. *)
Definition version_values (l : list metadata) : list cps :=
  flat_map (fun m => match md_version m with Some (mkVersion (c :: v) _) => [c :: v] | _ => [] end) l.
Definition version_comments (l : list metadata) : list cps :=
  flat_map (fun m => match md_version m with Some (mkVersion _ (Some (c :: v))) => [c :: v] | _ => [] end) l.
Definition descriptions (l : list metadata) : list (metadata * description) :=
  flat_map (fun m => match md_description m with Some d => [(m, d)] | None => [] end) l.
Definition all_html (l : list metadata) : Prop :=
  forall m d, In m l -> md_description m = Some d -> desc_type d = Some (txt "text/html").

(** The part of the merged description that is about one member. *)
Definition about (p : metadata * description) (s : cps) : Prop :=
  exists script ty,
    (md_languages (fst p) = [] /\ script = [] \/ exists rest, md_languages (fst p) = script :: rest) /\
    (desc_type (snd p) = Some ty \/ desc_type (snd p) = None /\ ty = txt "None") /\
    s = 10 :: txt "Script: '" ++ script ++ txt "' - MIME-type: '" ++ ty ++ txt "':" ++ 10 :: desc_value (snd p) ++ [10].

(** [s] occurs in [t]. *)
Definition occurs_in (s t : cps) : Prop := exists a b, t = a ++ s ++ b.

(** [t] is [s] with every occurrence of [old], from the left, replaced. *)
Inductive replacing (old new_ : cps) : cps -> cps -> Prop :=
| Replacing_end : replacing old new_ [] []
| Replacing_hit : forall s t, replacing old new_ s t -> replacing old new_ (old ++ s) (new_ ++ t)
| Replacing_miss : forall c s t, (forall r, c :: s <> old ++ r) -> replacing old new_ s t -> replacing old new_ (c :: s) (c :: t).
(** What a member is sorted by: its first language, undetermined ones last. *)
Definition sorts_as (m : metadata) (key : cps) : Prop :=
  replacing (txt "und-") (txt "zzz") (match md_languages m with [] => [] | s :: _ => s end) key.
(** [r] is [l] sorted: members that sort alike keep their order. *)
Definition in_script_order (l r : list metadata) : Prop :=
  Permutation l r /\
  (forall a m1 b m2 c k1 k2, r = a ++ m1 :: b ++ m2 :: c -> sorts_as m1 k1 -> sorts_as m2 k2 -> cps_leb k1 k2 = true) /\
  (forall k f, (forall m, f m = true -> sorts_as m k) -> filter f r = filter f l).

(** No carriage return in what becomes part of the merged description. *)
Definition no_return (m : metadata) : Prop :=
  (forall s, In s (md_languages m) -> ~ In 13 s) /\
  (forall d t, md_description m = Some d -> desc_type d = Some t -> ~ In 13 t).
