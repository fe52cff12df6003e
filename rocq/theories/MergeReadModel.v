(** Model of the end of merging a set (lgr/tools/merge_set.py:485-492): what was
    merged is written and read again, and what was read is the result.  No
    proofs here.

    A member comes with its metadata.  Only <meta> and <data> are written here;
    the rules and classes are in MergeRulesModel.v. *)
From Verif Require Import Base CharModel RefModel ActionModel LgrModel MetaModel SerialModel MergeModel MergeMetaModel.
Open Scope list_scope.

Section Read.
  Variable lang_check : cps -> option bool.
  Variable dig : N -> bool.
  Variable ord_names : list string -> list string.
  Variable ord_variants : list variant -> list variant.

  (** merge_set.py:488-492: without database, forced and not allowing invalid
      properties, which are the defaults (parser/parser.py:20). *)
  Definition read_again (m : metadata) (g : lgr) : res (metadata * lgr) :=
    match parse_document lang_check dig None false true (serialize_lgr m g) with
    | (Some p, Ok _) => Ok p
    | (None, Ok _) => Raise TypeError
    | (_, Raise e) => Raise e
    end.
  (** merge_set.py:452-492 merge_lgr_set. *)
  Definition merge_set (today : cps) (l : list (metadata * member)) : res (metadata * lgr) :=
    bind (merge_lgr_set ord_names ord_variants (map snd l)) (fun st =>
    read_again (merge_set_metadata today (map fst l)) (mg_lgr st)).
End Read.
