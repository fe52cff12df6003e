(** What hiding mixed script variants leaves of the variants of a label, in
    terms of the derivations of LabelSpec. *)
From Verif Require Import Base CharModel RepSpec ActionModel LabelModel LabelSpec.
Open Scope string_scope.
Open Scope list_scope.

Section Hide.
  Variables (rm : rule_oracle) (r : repertoire) (script : N -> string).

  (** The code point starts some entry of the repertoire. *)
  Definition known (x : N) : Prop := exists ch t, entry r ch /\ ch_cp ch = x :: t.
  (** [knows l n]: [n] of the code points of [l] start an entry. *)
  Inductive knows : cps -> nat -> Prop :=
  | kn_nil : knows [] 0
  | kn_known : forall x l n, known x -> knows l n -> knows (x :: l) (S n)
  | kn_other : forall x l n, ~ known x -> knows l n -> knows (x :: l) n.
  (** Some entry that starts with [x] and begins [rest] has a variant with a
      code point of script [s]. *)
  Definition offers (x : N) (rest : cps) (s : string) : Prop :=
    exists ch t v y, entry r ch /\ ch_cp ch = x :: t /\ starts ch rest /\
      In v (get_variants ch) /\ In y (v_cp v) /\ script y = s.

  Definition native (label : cps) : string -> Prop := permitted (label_script script label).
  Definition named (s : string) : Prop := s <> "Common" /\ s <> "Inherited".
  (** The scripts a variant of the whole label may be in. *)
  Definition alternative (label : cps) (s : string) : Prop :=
    named s /\ ~ native label s /\ (exists x, In x label /\ known x) /\
    forall l1 x l2 n, label = l1 ++ x :: l2 -> known x -> knows l1 n -> offers x (skipn n label) s.
  (** What one expects: every position of the label offers the script. *)
  Definition everywhere (label : cps) (s : string) : Prop :=
    named s /\ ~ native label s /\ forall l1 x l2, label = l1 ++ x :: l2 -> offers x (x :: l2) s.

  (** The derivation stays inside the scripts of the label, its first piece
      being free to stay as it is, or is inside one other script. *)
  Inductive fits (label : cps) : list (char * piece) -> Prop :=
  | ft_native : forall ch p l, (p = PChar ch \/ piece_within script (native label) p) ->
      (forall x, In x l -> piece_within script (native label) (snd x)) -> fits label ((ch, p) :: l)
  | ft_other : forall ch v x t l, v_cp v = x :: t ->
      piece_within script (alternative label) (PVar v) ->
      (forall y, In y l -> piece_within script (permitted (fun s => s = script x)) (snd y)) ->
      fits label ((ch, PVar v) :: l).
  (** The first entry is kept although it has a mapping to itself, which is
      hidden because not all its code points have a script of the label. *)
  Inductive unmapped (label : cps) : list (char * piece) -> Prop :=
  | um : forall ch v tail l, label = ch_cp ch ++ tail -> considered rm r [] label ch ->
      usable rm [] tail ch v -> v_cp v = ch_cp ch -> ~ piece_within script (native label) (PChar ch) ->
      replacement rm (considered rm r) (ch_cp ch) tail l -> unmapped label ((ch, PChar ch) :: l).
  (** The same, but for a mapping of the first entry to itself that is hidden. *)
  Definition remains (label : cps) (l : list (char * piece)) : Prop :=
    (replacement rm (considered rm r) [] label l \/ unmapped label l) /\ fits label l.
End Hide.
