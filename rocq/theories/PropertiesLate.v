(** Property theorems about a Unicode database that is set after the document
    has been read (C78).  Statements only. *)
From Verif Require Import Base CharModel RepSpec LgrModel MetaModel MetaSpec SerialModel SerialSpec SerialWitness ActionModel LabelModel LabelSpec ClassModel ClassSpec RuleModel RuleSpec RulesXmlModel RulesXmlSpec RulesXmlWitness
  EvalModel EvalSpec DocModel ReadySpec DocWitness LateSpec LateFinal LateWitness.
Open Scope string_scope.
Open Scope list_scope.
Open Scope nat_scope.

(** Whatever could be read with a database can be read without, and becomes the
    same LGR when the database is set: only the patterns computed while reading
    are missing. *)
Theorem C78_same : forall lang dig db fuel allow d x, read_document lang dig (Some db) fuel allow false d = Ok (Some x) ->
  exists y, read_document lang dig None fuel allow false d = Ok (Some y) /\ lg_db (ld_lgr y) = None /\
    give_database db y = mkLoaded (ld_meta x) (ld_lgr x) (ld_rules x) [].
Proof. exact read_without. Qed.
Print Assumptions C78_same.

(** What was read without can be read with a database exactly when every code
    point in it is allowed by the database and every rule has a meaning for
    it. *)
Theorem C78_readable : forall lang dig u1 u fuel0 allow d y, read_document lang dig None fuel0 allow false d = Ok (Some y) -> orderly_names (rules_part d) ->
  (exists fuel x, read_document lang dig (Some (u1, u)) fuel allow false d = Ok (Some x)) <->
  admits (Some u1) allow (ld_lgr y) /\ all_resolve u (ru_classes (ld_rules y)) (ru_rules (ld_rules y)).
Proof. exact readable_iff. Qed.
Print Assumptions C78_readable.
(** And then the same is read. *)
Theorem C78_read_with : forall lang dig u1 u fuel0 allow d y, read_document lang dig None fuel0 allow false d = Ok (Some y) -> orderly_names (rules_part d) ->
  admits (Some u1) allow (ld_lgr y) -> all_resolve u (ru_classes (ld_rules y)) (ru_rules (ld_rules y)) ->
  exists F, forall fuel, F <= fuel -> exists k, read_document lang dig (Some (u1, u)) fuel allow false d = Ok (Some (mkLoaded (ld_meta y) (set_database u1 (ld_lgr y)) (ld_rules y) k)).
Proof. exact read_with. Qed.
Print Assumptions C78_read_with.

(** Labels get the same answers from both.  (Partial as C73: rules must be within
    what RFC 7940 gives a meaning to.) *)
Theorem C78_labels_partial : forall lang dig u1 u fuel fuel' allow d x y,
  read_document lang dig (Some (u1, u)) fuel allow false d = Ok (Some x) -> read_document lang dig None fuel' allow false d = Ok (Some y) -> orderly_names (rules_part d) ->
  good_rules u (ru_classes (ld_rules x)) (ru_rules (ld_rules x)) -> all_defined (lg_rep (ld_lgr x)) (ru_actions (ld_rules x)) (ru_rules (ld_rules x)) ->
  exists F, forall f, F <= f -> forall script label, equal_answers u f x (give_database (u1, u) y) script label.
Proof. exact late_answers. Qed.
Print Assumptions C78_labels_partial.

(** Even if the document cannot be read with the database because of its code
    points, labels are evaluated by the meaning of its rules once the database
    is set. *)
Theorem C78_evaluates_partial : forall lang dig u1 u fuel0 allow d y, read_document lang dig None fuel0 allow false d = Ok (Some y) -> orderly_names (rules_part d) ->
  let x := give_database (u1, u) y in
  let r := lg_rep (ld_lgr x) in let look := ru_classes (ld_rules x) in let rules := ru_rules (ld_rules x) in let acts := ru_actions (ld_rules x) in
  all_resolve u look rules -> good_rules u look rules -> all_defined r acts rules ->
  exists rm F, truthful u look rules rm /\ forall f, F <= f ->
  (forall label v, snd (eligible_e u look rules f r acts label v (ld_cache x)) = test_label_eligible rm r acts label v) /\
  (forall script label inv hide gc wl, snd (compute_e u look rules f r acts script label inv hide gc wl (ld_cache x)) = compute_label_disposition rm r acts script true label inv hide gc wl) /\
  (forall n t label, snd (index_e u look rules f r n t label (ld_cache x)) = index_label rm r n t label) /\
  (forall script label hide, snd (estimate_e u look rules f r script label hide (ld_cache x)) = match estimate_variant_number rm r script label hide with Some n => Ok n | None => Raise OutOfFuel end).
Proof. exact late_evaluates. Qed.
Print Assumptions C78_evaluates_partial.

Example C78_nontrivial : e_read = Ok (Some e_loaded) /\ d_read = Ok (Some d_loaded) /\ orderly_names (rules_part d_doc) /\
  (ld_cache e_loaded = [] /\ lg_db (ld_lgr e_loaded) = None /\ ru_rules (ld_rules e_loaded) <> []) /\ ld_cache d_loaded <> [] /\
  (admits (Some (fst d_db)) false (ld_lgr e_loaded) /\ ~ admits (Some (fst strict_db)) false (ld_lgr e_loaded)) /\
  (all_resolve u0 (ru_classes (ld_rules e_loaded)) (ru_rules (ld_rules e_loaded)) /\ good_rules u0 (ru_classes (ld_rules e_loaded)) (ru_rules (ld_rules e_loaded)) /\
   all_defined (lg_rep (ld_lgr e_loaded)) (ru_actions (ld_rules e_loaded)) (ru_rules (ld_rules e_loaded))).
Proof. exact (conj e_ok (conj d_ok (conj d_orderly (conj e_empty (conj d_cached (conj (conj e_admits e_strict) (conj e_resolve (conj e_good e_defined)))))))). Qed.
(** A document that can only be read without: a property the database does not
    know. *)
Example C78_unknown_property : f_read = Ok (Some f_loaded) /\ orderly_names (rules_part d_unknown) /\
  exists e, read_document every_lang ascii_digit (Some d_db) 30 false false d_unknown = Raise e.
Proof. exact unknown_property. Qed.

(** Setting a database does not check the code points that are there: one that
    the database does not allow stays, and asking for it raises. *)
Theorem C78_unchecked_refuted : exists d fuel y db e, read_document every_lang ascii_digit None fuel false false d = Ok (Some y) /\
  read_document every_lang ascii_digit (Some db) fuel false false d = Raise e /\
  (exists ch, lookup (lg_rep (ld_lgr (give_database db y))) [98]%N = Some ch) /\
  lgr_get_char (ld_lgr (give_database db y)) [98]%N = Raise (CharInvalidIdnaProperty [98]%N).
Proof. exact unchecked. Qed.
Print Assumptions C78_unchecked_refuted.
(** With [force], what is read without the database and what is read with it have
    different code points. *)
Theorem C78_forced_refuted : exists d fuel x y db, read_document every_lang ascii_digit None fuel false true d = Ok (Some y) /\
  read_document every_lang ascii_digit (Some db) fuel false true d = Ok (Some x) /\
  (exists ch, lookup (lg_rep (ld_lgr (give_database db y))) [98]%N = Some ch) /\ lookup (lg_rep (ld_lgr x)) [98]%N = None.
Proof. exact forced_apart. Qed.
Print Assumptions C78_forced_refuted.
