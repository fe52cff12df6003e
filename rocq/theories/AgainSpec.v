(** Documents that can be written again as they were read. *)
From Verif Require Import Base UtilsModel MetaModel RefModel CharModel LgrModel SerialModel SerialSpec SameSpec ActionModel LabelModel ClassModel RuleModel RulesXmlModel RulesXmlSpec EvalModel DocModel.
Open Scope string_scope.
Open Scope list_scope.
Open Scope N_scope.

(** A description that is not empty (unless its type makes it a CDATA section),
    without carriage returns; references without empty identifiers or
    comments. *)
Definition plain_meta (e : meta_elem) : Prop :=
  match e with
  | MDescriptionE (Some t) ty => ~ In 13 t /\ (t <> [] \/ exists y, ty = Some y /\ y <> txt "text/plain")
  | MReferencesE l => forall r, In r l -> re_id r <> Some "" /\ re_comment r <> Some ""
  | _ => True
  end.
Definition plain_document (d : document) : Prop :=
  forall ml e, dc_meta d = Some ml -> In e ml -> plain_meta e.

(** What is read back: the same metadata, code points, references, rules,
    actions and elements; the same classes but for the order in which code points
    are listed. *)
Definition opt_rel {A} (R : A -> A -> Prop) (x y : option A) : Prop :=
  match x, y with Some a, Some b => R a b | None, None => True | _, _ => False end.
Definition same_look (t t' : table) : Prop := forall n, opt_rel same_class (dget String.eqb n t) (dget String.eqb n t').
Definition same_ruleset (g g' : ruleset) : Prop :=
  same_look (ru_classes g) (ru_classes g') /\ ru_class_names g' = ru_class_names g /\ ru_rules g' = ru_rules g /\ ru_rule_names g' = ru_rule_names g /\ ru_actions g' = ru_actions g /\
  ru_classes_xml g' = ru_classes_xml g /\ ru_rules_xml g' = ru_rules_xml g /\ ru_actions_xml g' = ru_actions_xml g.
Definition same_document (x x' : loaded) : Prop :=
  same_metadata (ld_meta x) (ld_meta x') /\ same_repertoire (ld_lgr x) (ld_lgr x') /\ rm_refs (lg_refs (ld_lgr x')) = rm_refs (lg_refs (ld_lgr x)) /\ same_ruleset (ld_rules x) (ld_rules x').
(** A label gets the same answers, from the caches left by reading. *)
Definition same_answers (u : ClassModel.unidb) (f : nat) (x x' : loaded) (script : N -> string) (label : cps) : Prop :=
    (forall v, same_res same_elig (snd (eligible_e u (ru_classes (ld_rules x)) (ru_rules (ld_rules x)) f (lg_rep (ld_lgr x)) (ru_actions (ld_rules x)) label v (ld_cache x)))
                                  (snd (eligible_e u (ru_classes (ld_rules x')) (ru_rules (ld_rules x')) f (lg_rep (ld_lgr x')) (ru_actions (ld_rules x')) label v (ld_cache x')))) /\
    (forall n t, snd (index_e u (ru_classes (ld_rules x')) (ru_rules (ld_rules x')) f (lg_rep (ld_lgr x')) n t label (ld_cache x')) =
                 snd (index_e u (ru_classes (ld_rules x)) (ru_rules (ld_rules x)) f (lg_rep (ld_lgr x)) n t label (ld_cache x))) /\
    (forall inv hide gc wl, snd (compute_e u (ru_classes (ld_rules x')) (ru_rules (ld_rules x')) f (lg_rep (ld_lgr x')) (ru_actions (ld_rules x')) script label inv hide gc wl (ld_cache x')) =
                            snd (compute_e u (ru_classes (ld_rules x)) (ru_rules (ld_rules x)) f (lg_rep (ld_lgr x)) (ru_actions (ld_rules x)) script label inv hide gc wl (ld_cache x))) /\
    (forall hide, snd (estimate_e u (ru_classes (ld_rules x')) (ru_rules (ld_rules x')) f (lg_rep (ld_lgr x')) script label hide (ld_cache x')) =
                  snd (estimate_e u (ru_classes (ld_rules x)) (ru_rules (ld_rules x)) f (lg_rep (ld_lgr x)) script label hide (ld_cache x))).
