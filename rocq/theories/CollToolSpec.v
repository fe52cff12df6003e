(** The collision tool: vocabulary of the statements. *)
From Verif Require Import Base UtilsModel CharModel ActionModel LabelModel RepSpec LabelSpec CollToolModel.
Open Scope string_scope.
Open Scope list_scope.

Section Spec.
  Variables (rm : rule_oracle) (r : repertoire) (acts : list action) (script : N -> string) (db : bool).
  (** The index label of a label in the LGR: the smallest of the labels made of the
      smallest variants of its parts. *)
  Definition has_index (l i : cps) : Prop :=
    l = [] /\ i = [] \/
    l <> [] /\ (exists chars, longest_match rm r l 0 chars []) /\ smallest (index_candidate rm r l) i.
  (** [x] is a code point of the label for which nothing in the LGR applies. *)
  Definition outside (l : cps) (x : N) : Prop := l <> [] /\ exists chars w inv, longest_match rm r l 0 chars ((x, w) :: inv).
  (** [ref] is the last reference label with index [i]. *)
  Definition named (refs : list cps) (i ref : cps) : Prop :=
    exists pre line post, refs = pre ++ line :: post /\ strip line = ref /\ has_index ref i /\
      forall l, In l post -> ~ has_index (strip l) i.
  (** [v] is generated as a variant label of [l]. *)
  Definition variant_label (l v : cps) : Prop :=
    exists p, replacement rm (considered rm r) [] l p /\ produced p /\ result p = v.

  (** The variants of the label that the tool wants to block. *)
  Definition to_block (ref label : cps) (blocks : list kline) : Prop :=
    exists items, compute_label_disposition rm r acts script db label false false false [] = (items, Ok tt) /\
      (forall k, In k blocks -> exists v types d, k = KBlock v types d) /\
      (forall v types d, In (KBlock v types d) blocks <->
         variant_label ref v /\ exists z, In z items /\ ls_cp z = v /\ ls_types z = types /\ ls_disp z = d).
  Definition answers (generate : bool) (refs : list cps) (label : cps) (group : list kline) : Prop :=
    exists i, has_index label i /\
    ((exists ref blocks, named refs i ref /\ group = KCheck label :: KCollision label ref :: blocks /\
        (if generate then to_block ref label blocks else blocks = [])) \/
     (forall l, In l refs -> ~ has_index (strip l) i) /\ group = [KCheck label; KNone label]).
  (** Why the tool stops at a label. *)
  Definition stopped (generate : bool) (refs : list cps) (label : cps) (e : exn) : Prop :=
    (exists x, outside label x /\ e = NotInLGR [x]) \/
    (generate = true /\ (exists i ref, has_index label i /\ named refs i ref) /\
     snd (compute_label_disposition rm r acts script db label false false false []) = Raise e).
End Spec.
