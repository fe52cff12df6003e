(** Property theorems about the tool that completes the variants of a document
    (C85).  Statements only. *)
From Verif Require Import Base UtilsModel CharModel RepSpec LgrModel LgrSpec MetaModel MetaSpec Rfc7940Model ValidateModel ValidateSpec PopulateModel PopulateSpec SerialModel SerialWitness RulesXmlModel RulesXmlSpec DocModel ReadySpec DocWitness
  AgainSpec AgainWitness PopToolModel PopToolSpec PopToolProofs PopToolWitness.
Open Scope N_scope.
Open Scope string_scope.
Open Scope list_scope.

(** What the tool prints can be read, and is the document that was given with its
    variants completed: see [completed] in PopToolSpec.  Variants that were there
    keep type, comment and references.  Given what it printed, the tool prints the
    same. *)
Theorem C85_completes : forall lang dig, dig 46 = false -> (forall c, ascii_digit c = true -> dig c = true) ->
  forall db fuel rng d x d', read_document lang dig db fuel false false d = Ok (Some x) -> plain_document d -> Forall qualified (rules_part d) ->
  (db <> None -> orderly_names (rules_part d)) -> populate_tool lang dig fuel rng db d = Ok (Some d') ->
  exists x', read_document lang dig db fuel false false d' = Ok (Some x') /\ completed x x' /\ write_document x' = d' /\
    (PopulateSpec.neat (ld_lgr x) -> forall a b v, mapping (lg_rep (ld_lgr x)) a b v ->
       exists w, mapping (lg_rep (ld_lgr x')) a b w /\ PopulateSpec.alike v w /\ (w = v \/ unconditional v)) /\
    populate_tool lang dig fuel rng db d' = Ok (Some d').
Proof. exact tool_completes. Qed.
Print Assumptions C85_completes.
Example C85_completes_nontrivial : read_document every_lang ascii_digit (Some d_db) 30 false false p_doc = Ok (Some p_loaded) /\ plain_document p_doc /\
  Forall qualified (rules_part p_doc) /\ orderly_names (rules_part p_doc) /\ PopulateSpec.neat (ld_lgr p_loaded) /\ p_tool None p_doc = Ok (Some p_printed) /\
  shown p_doc = [(txt "0061", [txt "0062"]); (txt "0062", [txt "0063 0064"]); (txt "0067", [])] /\
  shown p_printed = [(txt "0061", [txt "0062"; txt "0063 0064"]); (txt "0062", [txt "0061"; txt "0063 0064"]); (txt "0063 0064", [txt "0061"; txt "0062"]); (txt "0067", [])] /\
  p_tool None p_printed = Ok (Some p_printed).
Proof. exact (conj p_ok (conj p_plain (conj p_qualified (conj p_orderly (conj (proj2 p_populatable) (conj p_prints (conj eq_refl (conj p_shown p_twice)))))))). Qed.

(** It prints whenever the document is read and nothing stands in the way of
    completing the variants. *)
Theorem C85_prints : forall lang dig db fuel rng d x, read_document lang dig db fuel false true d = Ok (Some x) -> rng <> Some false -> populatable (ld_lgr x) ->
  exists d', populate_tool lang dig fuel rng db d = Ok (Some d').
Proof. exact tool_prints. Qed.
Print Assumptions C85_prints.
Example C85_prints_nontrivial : populatable (ld_lgr p_loaded) /\ p_tool (Some true) p_doc = Ok (Some p_printed).
Proof. split; [exact (proj1 p_populatable)|vm_compute; reflexivity]. Qed.
(** It prints nothing exactly when the schema refuses the document, or there is no
    LGR in it. *)
Theorem C85_silent : forall lang dig db fuel rng d, populate_tool lang dig fuel rng db d = Ok None <->
  rng = Some false \/ read_document lang dig db fuel false true d = Ok None.
Proof. exact tool_silent. Qed.
Print Assumptions C85_silent.
Example C85_silent_nontrivial : p_tool (Some false) p_doc = Ok None /\ p_tool (Some true) p_doc <> Ok None.
Proof. split; [reflexivity|vm_compute; discriminate]. Qed.
(** It stops on what stops reading, or on an error of the library when something
    stands in the way; nothing is printed then. *)
Theorem C85_errors : forall lang dig db fuel rng d e, populate_tool lang dig fuel rng db d = Raise e ->
  rng <> Some false /\ (read_document lang dig db fuel false true d = Raise e \/
    is_lgr_exception e = true /\ exists x, read_document lang dig db fuel false true d = Ok (Some x) /\ ~ populatable (ld_lgr x)).
Proof. exact tool_errors. Qed.
Print Assumptions C85_errors.
Example C85_errors_nontrivial : (exists x, a_read q_doc = Ok (Some x)) /\ p_tool None q_doc = Raise (LGRFormatException RANGE_NO_CHILD).
Proof. exact q_stops. Qed.

(** Refuted: that the other tool, which should print a document as it was read,
    prints any.  It reads an option it does not declare. *)
Theorem C85_dump_refuted : forall lang dig fuel register rng d, dump_tool lang dig fuel register rng d = Raise TypeError.
Proof. exact dump_stops. Qed.
Print Assumptions C85_dump_refuted.
