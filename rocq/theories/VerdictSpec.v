(** What decides the verdict on a label, for two repertoires one of which has
    been completed from the other. *)
From Verif Require Import Base CharModel RepSpec ValidateSpec ActionModel LabelModel LabelSpec.
Open Scope list_scope.

(** Every entry is still there, under the same rules and with the same mappings
    to itself. *)
Definition settled (r r' : repertoire) : Prop := forall c ch, lookup r c = Some ch ->
  exists ch', lookup r' c = Some ch' /\ ch_when ch' = ch_when ch /\ ch_not_when ch' = ch_not_when ch /\
    forall v, mapping r' c c v <-> mapping r c c v.
(** No code point or sequence that is new occurs in the label. *)
Definition avoids (r r' : repertoire) (label : cps) : Prop := forall c, lookup r c = None -> lookup r' c <> None ->
  ~ exists pre post, label = pre ++ c ++ post.

(** The same code points are refused, for the same rules. *)
Definition same_reason (p q : N * option (list (option string))) : Prop :=
  fst q = fst p /\
  match snd p, snd q with
  | Some l, Some l' => forall s, In s l' <-> In s l
  | None, None => True
  | _, _ => False
  end.
(** The same verdict: eligible or not, the disposition and the action it comes
    from, the parts reported, and how the label is cut. *)
Definition same_verdict (e e' : elig) : Prop :=
  el_ok e' = el_ok e /\ el_parts e' = el_parts e /\ el_disp e' = el_disp e /\ el_idx e' = el_idx e /\
  map ch_cp (el_chars e') = map ch_cp (el_chars e) /\ Forall2 same_reason (el_invalid e) (el_invalid e').
Definition verdict_kept (r r' : repertoire) (label : cps) : Prop := forall rm acts is_variant,
  match test_label_eligible rm r acts label is_variant, test_label_eligible rm r' acts label is_variant with
  | Ok e, Ok e' => same_verdict e e'
  | Raise x, Raise x' => x' = x
  | _, _ => False
  end.
