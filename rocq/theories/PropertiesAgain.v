(** Property theorems about writing a document that was read, and reading it
    back (C77).  Statements only. *)
From Verif Require Import Base CharModel LgrModel MetaModel MetaSpec SerialModel SerialWitness ActionModel ClassModel RuleModel RuleSpec RulesXmlModel RulesXmlSpec RulesXmlWitness
  LabelModel EvalModel EvalSpec DocModel ReadySpec DocWitness AgainSpec AgainFinal AgainWitness.
Open Scope string_scope.
Open Scope list_scope.
Open Scope nat_scope.

(** Whatever document was read, what is written for it can be read: the same
    metadata, code points, variants, references, classes, rules and actions come
    back.  From then on nothing changes any more: the same document is written,
    and reading it gives exactly what was read back. *)
Theorem C77_again : forall lang dig, dig 46%N = false -> (forall c, ascii_digit c = true -> dig c = true) ->
  forall db fuel allow d x, read_document lang dig db fuel allow false d = Ok (Some x) -> plain_document d -> Forall qualified (rules_part d) ->
  (db <> None -> orderly_names (rules_part d)) ->
  exists x', read_document lang dig db fuel allow false (write_document x) = Ok (Some x') /\ same_document x x' /\
    write_document x' = write_document x /\ read_document lang dig db fuel allow false (write_document x') = Ok (Some x').
Proof. exact settled. Qed.
Print Assumptions C77_again.

(** Labels get the same answers from both.  (Partial as C73: rules must be within
    what RFC 7940 gives a meaning to.) *)
Theorem C77_labels_partial : forall lang dig, dig 46%N = false -> (forall c, ascii_digit c = true -> dig c = true) ->
  forall u1 u fuel allow d x x', read_document lang dig (Some (u1, u)) fuel allow false d = Ok (Some x) -> plain_document d -> Forall qualified (rules_part d) -> orderly_names (rules_part d) ->
  read_document lang dig (Some (u1, u)) fuel allow false (write_document x) = Ok (Some x') ->
  good_rules u (ru_classes (ld_rules x)) (ru_rules (ld_rules x)) -> all_defined (lg_rep (ld_lgr x)) (ru_actions (ld_rules x)) (ru_rules (ld_rules x)) ->
  exists F, forall f, F <= f -> forall script label, same_answers u f x x' script label.
Proof. exact answers_again. Qed.
Print Assumptions C77_labels_partial.

(** [a_read] reads with the sample database. *)
Example C77_nontrivial : (a_read a_doc = Ok (Some a_loaded) /\ plain_document a_doc /\ Forall qualified (rules_part a_doc) /\
  orderly_names (rules_part a_doc)) /\
  (map (fun e => match e with DChar c _ _ => c | DRange f _ _ _ => f | DOther => [] end) (dc_data (write_document a_loaded)) = map UtilsModel.txt ["0061"; "0061 0063"; "0061 0062"; "0062"; "0063"; "0064"] /\
   dc_rules (write_document a_loaded) = Some [d_vowel; d_double; d_after; d_act] /\ write_document a_loaded <> a_doc) /\
  a_read (write_document a_loaded) = Ok (Some a_back).
Proof. exact (conj (conj a_ok (conj a_plain (conj a_qualified a_orderly))) (conj a_written a_again)). Qed.
Example C77_labels_nontrivial : read_document every_lang ascii_digit (Some d_db) 30 false false d_doc = Ok (Some d_loaded) /\ plain_document d_doc /\ Forall qualified (rules_part d_doc) /\
  orderly_names (rules_part d_doc) /\ good_rules u0 (ru_classes (ld_rules d_loaded)) (ru_rules (ld_rules d_loaded)) /\
  all_defined (lg_rep (ld_lgr d_loaded)) (ru_actions (ld_rules d_loaded)) (ru_rules (ld_rules d_loaded)).
Proof. exact (conj d_ok (conj d_plain (conj d_qualified (conj d_orderly (conj d_good d_defined))))). Qed.

(** An empty description in a CDATA section can be read, but is written as an
    empty element, which cannot. *)
Theorem C77_empty_description_refuted : exists x e, a_read (described [] (Some "text/plain")) = Ok (Some x) /\ a_read (write_document x) = Raise e.
Proof. exact empty_description. Qed.
Print Assumptions C77_empty_description_refuted.
(** A description may lose another carriage return each time. *)
Theorem C77_carriage_return_refuted : exists x x', a_read (described [13; 13; 10]%N None) = Ok (Some x) /\ a_read (write_document x) = Ok (Some x') /\
  md_description (ld_meta x') <> md_description (ld_meta x).
Proof. exact carriage_return. Qed.
Print Assumptions C77_carriage_return_refuted.
