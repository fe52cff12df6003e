(** Two documents that give every label the same answers. *)
From Verif Require Import Base CharModel LgrModel ActionModel LabelModel ClassModel RuleModel RulesXmlModel EvalModel DocModel.
Open Scope list_scope.

(** With the database [u], and whatever patterns are already cached in each of
    them, [x] and [y] answer every question about [label] in the same way. *)
Definition equal_answers (u : ClassModel.unidb) (f : nat) (x y : loaded) (script : N -> string) (label : cps) : Prop :=
  let look := fun z => ru_classes (ld_rules z) in let rules := fun z => ru_rules (ld_rules z) in
  let acts := fun z => ru_actions (ld_rules z) in let rep := fun z => lg_rep (ld_lgr z) in
  (forall v, snd (eligible_e u (look y) (rules y) f (rep y) (acts y) label v (ld_cache y)) =
             snd (eligible_e u (look x) (rules x) f (rep x) (acts x) label v (ld_cache x))) /\
  (forall n t, snd (index_e u (look y) (rules y) f (rep y) n t label (ld_cache y)) = snd (index_e u (look x) (rules x) f (rep x) n t label (ld_cache x))) /\
  (forall inv hide gc wl, snd (compute_e u (look y) (rules y) f (rep y) (acts y) script label inv hide gc wl (ld_cache y)) =
                          snd (compute_e u (look x) (rules x) f (rep x) (acts x) script label inv hide gc wl (ld_cache x))) /\
  (forall hide, snd (estimate_e u (look y) (rules y) f (rep y) script label hide (ld_cache y)) =
                snd (estimate_e u (look x) (rules x) f (rep x) script label hide (ld_cache x))).
