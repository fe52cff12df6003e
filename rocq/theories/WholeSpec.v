(** What the whole review of an IDN table is expected to say, without reference to
    how it is computed. *)
From Verif Require Import Base CharModel RepSpec ActionModel LgrModel ClassModel ValidateSpec ReviewModel ReviewSpec WholeModel.
Open Scope string_scope.
Open Scope list_scope.

(** The overall result of a part of the summary. *)
Definition overall (p : part) (r : review) : Prop := fst p = result_name r.
(** The part tells what there is to tell on some lines: the worst of their results,
    and one row for each remark with how often it was made. *)
Definition sums_up (p : part) (l : list (review * string)) : Prop :=
  (exists r, overall p r /\ worst l r) /\
  NoDup (dkeys (snd p)) /\ (forall m, In m (dkeys (snd p)) <-> exists r, In (r, m) l) /\
  (forall m s n, In (m, (s, n)) (snd p) -> n = times m l /\ exists r, s = result_name r /\ last_with m l r).
(** Every part is a match. *)
Definition all_match (s : summary) : Prop :=
  overall (su_tags s) RMatch /\ overall (su_repertoire s) RMatch /\ overall (su_variants s) RMatch /\
  overall (su_classes s) RMatch /\ overall (su_rules s) RMatch /\ overall (su_actions s) RMatch.

(** Two code points are never variants of each other in more than one way. *)
Definition one_variant (r : repertoire) : Prop := forall a b v w, mapping r a b v -> mapping r a b w -> v = w.
(** No variant has an empty type (a variant may have none). *)
Definition no_empty_type (r : repertoire) : Prop := forall a b v, mapping r a b v -> v_type v <> Some "".
(** Every variant of one is in the other, with the same type and context. *)
Definition variants_within (r s : repertoire) : Prop :=
  forall a b v, mapping r a b v -> exists w, mapping s a b w /\ v_type v = v_type w /\ variant_context v = variant_context w.
(** Two code points or sequences with the same content, script tags apart. *)
Definition same_code_point (a b : char) : Prop :=
  (forall t, plain_tag t -> (In t (ch_tags a) <-> In t (ch_tags b))) /\ context_of_char a = context_of_char b.

(** A class the LGR defines, that is not one made for a tag. *)
Definition defines (t : idn_table) (n : string) (c : cls) : Prop := dget String.eqb n (it_classes t) = Some (false, c).
(** A code point of the LGR, alone or in a range. *)
Definition point (r : repertoire) (c : N) : Prop := lookup r [c] <> None.
(** A member of a class that is a code point of the LGR; a class that cannot be
    computed has none. *)
Definition member (fuel : nat) (t : idn_table) (n : string) (c : N) : Prop :=
  exists u k s, it_db t = Some u /\ defines t n k /\ class_set u (look_of (it_classes t)) fuel k = Ok s /\ s c = true /\ point (it_rep t) c.
(** Evaluating the classes does not stop the review. *)
Definition classes_fine (runtime : exn -> bool) (fuel : nat) (t : idn_table) : Prop :=
  exists u, it_db t = Some u /\
    forall n k e, defines t n k -> class_set u (look_of (it_classes t)) fuel k = Raise e -> runtime e = true.

(** Among the members of a set: every variant goes both ways; a variant of a
    variant is a variant. *)
Definition set_symmetric (r : repertoire) (s : list cps) : Prop :=
  forall a b, In a s -> has_target r a b -> In b s /\ has_target r b a.
Definition set_transitive (r : repertoire) (s : list cps) : Prop :=
  forall a b, In a s -> has_target r a b -> In b s /\ forall c, has_target r b c -> c <> a -> has_target r a c.

(** A sequence made with a code point that some entry of the LGR has. *)
Definition broken (r : repertoire) (c : cps) : Prop :=
  (1 < List.length c)%nat /\ exists x e, In x c /\ In x e /\ lookup r e <> None.
(** The first of them. *)
Definition first_broken (r : repertoire) (l : list cps) (c : cps) : Prop :=
  exists l1 l2, l = l1 ++ c :: l2 /\ broken r c /\ forall x, In x l1 -> ~ broken r x.
(** A row with the same results and the remark on a missing sequence after both
    remarks. *)
Definition with_remark (text : string) (x y : vrow) : Prop :=
  vr_src y = vr_src x /\ vr_dst y = vr_dst x /\
  vr_fwd y = (fst (vr_fwd x), (snd (vr_fwd x) ++ text)%string) /\ vr_rev y = (fst (vr_rev x), (snd (vr_rev x) ++ text)%string).
Definition may_be_missing (text : string) : string := ("." ++ String (Ascii.ascii_of_nat 10) "The sequence """ ++ text ++ """ may be missing.")%string.

(** What the checks say of a variant set of the table; nothing of no set. *)
Definition check_says (ir : repertoire) (i : list cps) (c : option (bool * bool)) : Prop :=
  match i with
  | [] => c = None
  | _ :: _ => exists x y, c = Some (x, y) /\
      (x = true <-> (forall a, In a i -> lookup ir a <> None) /\ set_symmetric ir i) /\ (y = true <-> (forall a, In a i -> lookup ir a <> None) /\ set_transitive ir i)
  end.

(** Order of the classes: those the LGR names before those made for a tag, and
    by name. *)
Definition for_a_tag (n : string) : Prop := exists t, n = ("#__internal_tag_" ++ t)%string.
Definition class_before (a b : string) : Prop :=
  (~ for_a_tag a /\ for_a_tag b) \/ ((for_a_tag a <-> for_a_tag b) /\ String.compare a b <> Gt).
