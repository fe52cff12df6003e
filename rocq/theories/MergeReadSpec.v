(** Specification of the end of merging a set of LGRs. *)
From Verif Require Import Base CharModel RepSpec RefModel ActionModel LgrModel LgrSpec ValidateSpec MetaModel SerialSpec MergeMetaSpec MergeModel MergeSpec.
Open Scope string_scope.
Open Scope list_scope.

(** The references of [g] among [refs]. *)
Definition defined_of (g : lgr) (refs refs' : list string) : Prop :=
  refs' = filter (fun r => match text_in g r with Some _ => true | None => false end) refs.
(** The same variant, citing what is defined. *)
Definition read_variant (g : lgr) (v u : variant) : Prop :=
  v_cp u = v_cp v /\ v_type u = v_type v /\ v_when u = v_when v /\ v_not_when u = v_not_when v /\ v_comment u = v_comment v /\
  defined_of g (v_refs v) (v_refs u).
(** The same entry, citing what is defined. *)
Record read_entry (g : lgr) (ch ch' : char) : Prop := {
  en_cp : ch_cp ch' = ch_cp ch;
  en_comment : ch_comment ch' = ch_comment ch;
  en_refs : defined_of g (ch_refs ch) (ch_refs ch');
  en_tags : ch_tags ch' = ch_tags ch;
  en_when : ch_when ch' = ch_when ch;
  en_not_when : ch_not_when ch' = ch_not_when ch;
  en_sound : forall u, In u (get_variants ch') -> exists v, In v (get_variants ch) /\ read_variant g v u;
  en_complete : forall v, In v (get_variants ch) -> exists u, In u (get_variants ch') /\ read_variant g v u
}.
Definition read_as (g g' : lgr) : Prop :=
  rm_refs (lg_refs g') = rm_refs (lg_refs g) /\
  forall c, match lookup (lg_rep g) c, lookup (lg_rep g') c with
            | Some ch, Some ch' => read_entry g ch ch'
            | None, None => True
            | _, _ => False
            end.

(** A word that can stand in a blank-separated attribute. *)
Definition word (s : string) : Prop := s <> "" /\ spaceless s.
(** A member whose names can be written: ids of references, tags, and the tags
    its database gives. *)
Record printable (m : member) : Prop := {
  pm_script : spaceless (get_script m);
  pm_tags : tags_writable (mb_lgr m);
  pm_extensions : forall f x t, mb_extensions m = Some f -> In t (f x) -> word t;
  pm_ids : ~ defined_ref (mb_lgr m) "";
  pm_comments : comments_writable (lg_refs (mb_lgr m))
}.
(** A member that can be written, with its metadata. *)
Definition storable (lang_check : cps -> option bool) (dig : N -> bool) (x : metadata * member) : Prop :=
  meta_writable lang_check dig (fst x) /\ no_return (fst x) /\ tidy (mb_lgr (snd x)) /\ ref_tidy (mb_lgr (snd x)) /\ printable (snd x).
