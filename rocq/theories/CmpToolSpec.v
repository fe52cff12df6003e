(** The comparison tool: vocabulary of the statements. *)
From Verif Require Import Base UtilsModel CharModel RepSpec RefModel LgrModel LgrSpec MetaModel MetaSpec CompareModel CompareSpec SerialModel SerialSpec MergeMetaSpec.
Open Scope string_scope.
Open Scope list_scope.

(** Tags a reader of XML can have found in an attribute. *)
Definition neat_tags (g : lgr) : Prop :=
  forall c ch t, lookup (lg_rep g) c = Some ch -> In t (ch_tags ch) -> t <> "" /\ spaceless t.
(** The type of the description has no carriage return. *)
Definition neat_type (m : metadata) : Prop :=
  forall d t, md_description m = Some d -> desc_type d = Some t -> ~ In 13%N t.

(** An LGR that could be written and read as it is. *)
Definition presentable (lang_check : cps -> option bool) (dig : N -> bool) (d : doc) : Prop :=
  input_ok d /\ meta_writable lang_check dig (doc_meta d) /\ neat_type (doc_meta d) /\ neat_tags (doc_lgr d).

(** Reading [x] without tolerance gives what is in [d]. *)
Definition reads_as (lang_check : cps -> option bool) (dig : N -> bool) (db : option unidb) (allow : bool) (x : xml_doc) (d : doc) : Prop :=
  exists m g, parse_document lang_check dig db allow false x = (Some (m, g), Ok tt) /\
    same_metadata (doc_meta d) m /\ same_repertoire (doc_lgr d) g /\ rm_refs (lg_refs g) = rm_refs (lg_refs (doc_lgr d)).
