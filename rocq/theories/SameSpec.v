(** Repertoires with the same entries, as far as labels are concerned: comments,
    references and tags do not count (of entries or of variants), nor whether an entry belongs to a range,
    nor the order in which entries were added. *)
From Verif Require Import Base CharModel RepSpec ActionModel LabelModel.
Open Scope list_scope.

Definition same_variant (v v' : variant) : Prop :=
  v_cp v' = v_cp v /\ v_type v' = v_type v /\ v_when v' = v_when v /\ v_not_when v' = v_not_when v.
Definition same_use (ch ch' : char) : Prop :=
  ch_cp ch' = ch_cp ch /\ ch_when ch' = ch_when ch /\ ch_not_when ch' = ch_not_when ch /\
  Forall2 same_variant (get_variants ch) (get_variants ch').
Definition same_uses (r r' : repertoire) : Prop :=
  forall c, match lookup r c, lookup r' c with
            | Some ch, Some ch' => same_use ch ch'
            | None, None => True
            | _, _ => False
            end.
(** The same outcome of a test; the entries found are those of the respective
    repertoire. *)
Definition same_elig (e e' : elig) : Prop :=
  el_ok e' = el_ok e /\ el_parts e' = el_parts e /\ el_invalid e' = el_invalid e /\ el_disp e' = el_disp e /\ el_idx e' = el_idx e /\
  Forall2 same_use (el_chars e) (el_chars e').
Definition same_res {A} (R : A -> A -> Prop) (x x' : res A) : Prop :=
  match x, x' with Ok a, Ok a' => R a a' | Raise e, Raise e' => e' = e | _, _ => False end.
(** The same variant label, made of the same pieces. *)
Inductive same_piece : piece -> piece -> Prop :=
| sp_char : forall ch ch', same_use ch ch' -> same_piece (PChar ch) (PChar ch')
| sp_var : forall v v', same_variant v v' -> same_piece (PVar v) (PVar v').
Definition same_vlabel (w w' : vlabel) : Prop :=
  vl_cp w' = vl_cp w /\ vl_disp w' = vl_disp w /\ vl_only w' = vl_only w /\ Forall2 same_piece (vl_chars w) (vl_chars w').
(** Every question about labels gets the same answer. *)
Definition same_answers (rm : rule_oracle) (r r' : repertoire) : Prop :=
  forall acts script label,
    (forall is_variant, same_res same_elig (test_label_eligible rm r acts label is_variant) (test_label_eligible rm r' acts label is_variant)) /\
    (forall max_rec as_tuple, index_label rm r' max_rec as_tuple label = index_label rm r max_rec as_tuple label) /\
    (forall hide, estimate_variant_number rm r' script label hide = estimate_variant_number rm r script label hide) /\
    (forall has_unidb include_invalid hide gen_chars with_labels,
       compute_label_disposition rm r' acts script has_unidb label include_invalid hide gen_chars with_labels =
       compute_label_disposition rm r acts script has_unidb label include_invalid hide gen_chars with_labels) /\
    (forall hide, match label_variants rm r script label hide, label_variants rm r' script label hide with
                  | Some ws, Some ws' => Forall2 same_vlabel ws ws'
                  | None, None => True
                  | _, _ => False
                  end).
