(** Specification vocabulary for the union and the intersection of two LGRs. *)
From Coq Require Import Permutation.
From Verif Require Import Base CharModel RepSpec UtilsModel RefModel ActionModel LgrModel LgrSpec MetaModel CompareModel.
Open Scope string_scope.
Open Scope list_scope.

(** The order in which sets are enumerated is some rearrangement. *)
Definition permutes (o : orders) : Prop :=
  (forall l, Permutation (ord_cps o l) l) /\ (forall l, Permutation (ord_variants o l) l) /\
  (forall l, Permutation (ord_names o l) l) /\ (forall l, Permutation (ord_actions o l) l) /\
  (forall l, Permutation (ord_scopes o l) l).

(** At most one of the two kinds of context rule. *)
Definition one_context (w nw : option string) : Prop := w = None \/ nw = None.

(** Nothing in the LGR had to be forced: no entry has a repeated tag or two
    kinds of context, no sequence has a tag. *)
Definition orderly_char (ch : char) : Prop :=
  NoDup (ch_tags ch) /\ ((1 < length (ch_cp ch))%nat -> ch_tags ch = []) /\
  one_context (ch_when ch) (ch_not_when ch) /\
  (forall v, In v (get_variants ch) -> one_context (v_when v) (v_not_when v)).
Definition orderly (g : lgr) : Prop := forall c ch, lookup (lg_rep g) c = Some ch -> orderly_char ch.

(** Edits made without force. *)
Definition unforced (o : lgr_op) : Prop :=
  match o with
  | LAddCp _ _ _ _ _ _ _ _ force => force = false
  | LAddRange _ _ _ _ _ _ _ _ _ force => force = false
  | LAddVariant _ _ _ _ _ _ _ _ _ force => force = false
  | _ => True
  end.

(** Every rule, class and action has its XML text. *)
Definition aligned (d : doc) : Prop :=
  length (doc_rules d) = length (doc_rules_xml d) /\ length (doc_classes d) = length (doc_classes_xml d) /\
  length (doc_actions d) = length (doc_actions_xml d).

(** What the combination can take as input. *)
Definition input_ok (d : doc) : Prop := tidy (doc_lgr d) /\ orderly (doc_lgr d) /\ aligned d.

(** The entry of a code point in a document. *)
Definition entry_of (d : doc) (c : cps) : option char := lookup (lg_rep (doc_lgr d)) c.

(** The same variant without its references. *)
Definition unreferenced (v : variant) : variant :=
  mkVariant (v_cp v) (v_type v) (v_when v) (v_not_when v) (v_comment v) [].

(** [v] is a variant of the entry [o] (none when there is no entry). *)
Definition has_variant (o : option char) (v : variant) : Prop :=
  exists ch, o = Some ch /\ In v (get_variants ch).
Definition has_vkey (o : option char) (k : cps * option string * option string) : Prop :=
  exists v, has_variant o v /\ vkey v = k.
Definition has_tag (o : option char) (t : string) : Prop := exists ch, o = Some ch /\ In t (ch_tags ch).

(** The comment of an entry made from two: both comments when they differ. *)
Definition joined (a b c : option string) : Prop :=
  match a, b with
  | None, _ => c = b
  | _, None => c = a
  | Some x, Some y => (x = y -> c = Some x) /\ (x <> y -> c = Some (x ++ "|" ++ y)%string)
  end.

(** Only the kind of the entries may differ: ranges are spelled out. *)
Definition only_expanded (d d' : doc) : Prop :=
  (forall c, entry_of d' c = option_map single (entry_of d c)) /\ rep_ranges (lg_rep (doc_lgr d')) = [] /\
  lg_tags (doc_lgr d') = lg_tags (doc_lgr d) /\ lg_refs (doc_lgr d') = lg_refs (doc_lgr d) /\
  lg_types (doc_lgr d') = lg_types (doc_lgr d) /\
  doc_name d' = doc_name d /\ doc_meta d' = doc_meta d /\ doc_actions d' = doc_actions d /\
  doc_actions_xml d' = doc_actions_xml d /\ doc_rules d' = doc_rules d /\ doc_rules_xml d' = doc_rules_xml d /\
  doc_classes d' = doc_classes d /\ doc_classes_xml d' = doc_classes_xml d.

(** [d] is the union of [d1] and [d2] in the sense of the program. *)
Definition union_is (o : orders) (today : cps) (d1 d2 d : doc) : Prop :=
  exists d1' d2', union_lgrs o today d1 d2 = (d1', d2', Ok d).
Definition intersection_is (o : orders) (today : cps) (d1 d2 d : doc) : Prop :=
  exists d1' d2', intersect_lgrs o today d1 d2 = (d1', d2', Ok d).

(** ** Actions *)
(** Two actions with the same conditions and the same disposition; the order
    and the repetition of variant types are immaterial. *)
Definition same_types (a b : option (list string)) : Prop :=
  match a, b with
  | Some x, Some y => forall t, In t x <-> In t y
  | None, None => True
  | _, _ => False
  end.
Definition same_action (a b : action) : Prop :=
  a_disp a = a_disp b /\ a_match a = a_match b /\ a_not_match a = a_not_match b /\
  same_types (a_any a) (a_any b) /\ same_types (a_all a) (a_all b) /\ same_types (a_only a) (a_only b).

(** The first action of a list that applies gives the disposition. *)
Fixpoint verdict (rmatch : rule_oracle) (l : list action) (label : cps) (ds : dispset) (only : bool) : option string :=
  match l with
  | [] => None
  | a :: l' => match act_apply rmatch a label ds only with Some d => Some d | None => verdict rmatch l' label ds only end
  end.

(** ** Dates *)
(** Optional texts in the order of code points; an absent date does not
    constrain. *)
Definition not_after (a b : cps) : Prop := text_gtb a b = false.
Definition latest (a b r : option cps) : Prop :=
  match a, b with
  | None, _ => r = b
  | _, None => r = a
  | Some x, Some y => exists z, r = Some z /\ (z = x \/ z = y) /\ not_after x z /\ not_after y z
  end.
Definition earliest (a b r : option cps) : Prop :=
  match a, b with
  | None, _ => r = b
  | _, None => r = a
  | Some x, Some y => exists z, r = Some z /\ (z = x \/ z = y) /\ not_after z x /\ not_after z y
  end.

(** ** Names *)
(** The definition of [n] in a list of names with parallel texts: the first one. *)
Fixpoint text_of (ns xs : list string) (n : string) : option string :=
  match ns, xs with
  | m :: ns', x :: xs' => if String.eqb m n then Some x else text_of ns' xs' n
  | _, _ => None
  end.
