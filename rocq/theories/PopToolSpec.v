(** Specification vocabulary for the tool that completes the variants of a
    document. *)
From Verif Require Import Base CharModel RepSpec RefModel LgrModel LgrSpec MetaModel SerialModel SerialSpec Rfc7940Model ValidateModel ValidateSpec PopulateModel PopulateSpec RulesXmlModel DocModel AgainSpec.
Open Scope string_scope.
Open Scope list_scope.

(** [x'] is [x] with its variants completed: they are symmetric and transitive
    and relate exactly the linked code points; there are the entries of [x], the
    same but for their variants, and the bare targets; nothing else differs. *)
Record completed (x x' : loaded) : Prop := mkCompleted {
  cm_symmetric : symmetric (lg_rep (ld_lgr x'));
  cm_transitive : transitive (lg_rep (ld_lgr x'));
  cm_entries : forall a, lookup (lg_rep (ld_lgr x')) a <> None <-> mentioned (lg_rep (ld_lgr x)) a;
  cm_targets : forall a b, has_target (lg_rep (ld_lgr x')) a b <->
    (a <> b /\ linked (lg_rep (ld_lgr x)) a b) \/ (a = b /\ has_target (lg_rep (ld_lgr x)) a a);
  cm_kept : forall a ch, lookup (lg_rep (ld_lgr x)) a = Some ch -> exists ch', lookup (lg_rep (ld_lgr x')) a = Some ch' /\ same_entry ch ch';
  cm_new : forall a ch', lookup (lg_rep (ld_lgr x')) a = Some ch' -> lookup (lg_rep (ld_lgr x)) a = None -> same_entry (bare a) ch';
  cm_variants : forall a b w, mapping (lg_rep (ld_lgr x')) a b w -> (exists v, mapping (lg_rep (ld_lgr x)) a b v /\ alike v w) \/ plain_blocked w;
  cm_metadata : same_metadata (ld_meta x) (ld_meta x');
  cm_references : rm_refs (lg_refs (ld_lgr x')) = rm_refs (lg_refs (ld_lgr x));
  cm_rules : same_ruleset (ld_rules x) (ld_rules x') }.
