(** What a class stands for, independently of how it is computed. *)
From Coq Require Import Ascii.
From Verif Require Import Base ClassModel.
Open Scope string_scope.
Open Scope list_scope.

Fixpoint no_colon (s : string) : Prop :=
  match s with EmptyString => True | String c s' => c <> ":"%char /\ no_colon s' end.

(** [denotes u look c S]: class [c] is the set [S] of code points, given the
    classes of the LGR.  A chain of references must end. *)
Inductive denotes (u : unidb) (look : table) : cls -> (N -> Prop) -> Prop :=
| D_by_ref : forall n b t p l c (S : N -> Prop), dget String.eqb b look = Some c -> denotes u look c S ->
    denotes u look (ClPlain n (Some b) t p l) S
| D_tag : forall n t p l c (S : N -> Prop), dget String.eqb (tag_classname t) look = Some c -> denotes u look c S ->
    denotes u look (ClPlain n None (Some t) p l) S
| D_no_tag : forall n t p l (S : N -> Prop), dget String.eqb (tag_classname t) look = None -> (forall x, ~ S x) ->
    denotes u look (ClPlain n None (Some t) p l) S
| D_property : forall n nm v l f (S : N -> Prop), no_colon nm -> no_colon v -> ud_prop u nm v = Some f ->
    (forall x, S x <-> x <= ud_max u /\ f x = true) ->
    denotes u look (ClPlain n None None (Some (nm ++ ":" ++ v)%string) l) S
| D_literal : forall n l (S : N -> Prop), (forall x, S x <-> x <= ud_max u /\ In x l) ->
    denotes u look (ClPlain n None None None l) S
| D_complement : forall n c (S1 S : N -> Prop), denotes u look c S1 -> (forall x, S x <-> x <= ud_max u /\ ~ S1 x) ->
    denotes u look (ClComb n Complement [c]) S
| D_union_none : forall n (S : N -> Prop), (forall x, ~ S x) -> denotes u look (ClComb n Union []) S
| D_union : forall n c ch (S1 S2 S : N -> Prop), denotes u look c S1 -> denotes u look (ClComb n Union ch) S2 ->
    (forall x, S x <-> S1 x \/ S2 x) -> denotes u look (ClComb n Union (c :: ch)) S
| D_intersection : forall n c1 c2 (S1 S2 S : N -> Prop), denotes u look c1 S1 -> denotes u look c2 S2 ->
    (forall x, S x <-> S1 x /\ S2 x) -> denotes u look (ClComb n Intersection [c1; c2]) S
| D_difference : forall n c1 c2 (S1 S2 S : N -> Prop), denotes u look c1 S1 -> denotes u look c2 S2 ->
    (forall x, S x <-> S1 x /\ ~ S2 x) -> denotes u look (ClComb n Difference [c1; c2]) S
| D_symmetric_difference : forall n c1 c2 (S1 S2 S : N -> Prop), denotes u look c1 S1 -> denotes u look c2 S2 ->
    (forall x, S x <-> (S1 x /\ ~ S2 x) \/ (S2 x /\ ~ S1 x)) -> denotes u look (ClComb n SymmetricDifference [c1; c2]) S.

(** Classes made with the constructors and add_child: no combination has too
    many children. *)
Fixpoint shaped (c : cls) : Prop :=
  match c with
  | ClPlain _ _ _ _ _ => True
  | ClComb _ op ch => (max_children op = 0%nat \/ (length ch <= max_children op)%nat) /\
      (fix all l := match l with [] => True | x :: l' => shaped x /\ all l' end) ch
  end.
Definition shaped_table (look : table) : Prop := forall n c, dget String.eqb n look = Some c -> shaped c.

(** Names referred to, properties used. *)
Fixpoint class_refs (c : cls) : list string :=
  match c with
  | ClPlain _ (Some b) _ _ _ => [b]
  | ClPlain _ None _ _ _ => []
  | ClComb _ _ ch => flat_map class_refs ch
  end.
Fixpoint class_props (c : cls) : list string :=
  match c with
  | ClPlain _ None None (Some p) _ => [p]
  | ClPlain _ _ _ _ _ => []
  | ClComb _ _ ch => flat_map class_props ch
  end.
Definition tag_like (n : string) : Prop := exists t, n = tag_classname t.
Definition known_property (u : unidb) (p : string) : Prop :=
  exists nm v, p = (nm ++ ":" ++ v)%string /\ no_colon nm /\ no_colon v /\ ud_prop u nm v <> None.

(** An addition that is validated, redefines nothing, keeps clear of the names
    reserved for tags, and uses known properties. *)
Definition tidy_class_op (u : unidb) (look : table) (o : class_op) : Prop :=
  match o with
  | CAdd c force =>
      force = false /\ shaped c /\
      (forall n, cls_name c = Some n -> dget String.eqb n look = None /\ ~ tag_like n) /\
      (forall b, In b (class_refs c) -> ~ tag_like b) /\
      (forall p, In p (class_props c) -> known_property u p)
  | _ => True
  end.
Definition tidy_classes (u : unidb) (ops : list class_op) : Prop :=
  forall pre o post, ops = pre ++ o :: post -> tidy_class_op u (class_run pre) o.

(** What validation asks for (RFC 7940, 6.2): exactly the outermost class is
    named, references are to classes seen, combinations have the right number
    of members. *)
Inductive valid_class (look : table) : bool -> cls -> Prop :=
| V_plain : forall top n b t p l, (top = true <-> n <> None) ->
    (forall x, b = Some x -> dget String.eqb x look <> None) -> valid_class look top (ClPlain n b t p l)
| V_comb : forall top n op ch, (top = true <-> n <> None) ->
    match op with Complement => length ch = 1%nat | Union => (2 <= length ch)%nat | _ => length ch = 2%nat end ->
    (forall c, In c ch -> valid_class look false c) -> valid_class look top (ClComb n op ch).
