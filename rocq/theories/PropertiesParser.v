(** C101: one parser may be asked for validation, the Unicode version and the
    LGR, in any order. *)
From Verif Require Import Base UtilsModel SerialSpec MetaModel MetaSpec CharModel LgrModel Rfc7940Model SerialModel SerialWitness RulesXmlModel DocModel DocWitness ParserModel ParserSpec ParserProofs ParserFinal ParserWitness.
Open Scope string_scope.
Open Scope list_scope.

(** Whatever is asked of one parser about a document that can be read, in
    whatever order and how often, each answer is the one a new parser gives. *)
Theorem C101_answers : forall lang_check dig db fuel allow_invalid force d conforms src x l,
  read_document lang_check dig db fuel allow_invalid force d = Ok (Some x) -> rereadable src \/ ~ In Validate l ->
  exists p ys, performs lang_check dig db fuel allow_invalid force d conforms src new_parser l = (p, Ok ys) /\ Forall2 (right x conforms) l ys.
Proof. exact answers_right. Qed.
Print Assumptions C101_answers.
Example C101_answers_witness : read_document every_lang ascii_digit (Some d_db) 30%nat false true p_doc = Ok (Some p_loaded) /\ (rereadable Named \/ ~ In Validate p_asks).
Proof. split; [exact p_reads|]. left. discriminate. Qed.
Example C101_answers_seen : md_unicode (ld_meta p_loaded) = Some (txt "6.3.0") /\ recorded (md_checks (ld_meta p_loaded)) "char_ascending_order" = Some false /\
  rep_len (lg_rep (ld_lgr p_loaded)) = 8%nat.
Proof. exact p_says. Qed.

(** What was asked before changes nothing in the LGR read nor in the results of
    the tests, but that the result of a validation is among them. *)
Theorem C101_parse_after : forall lang_check dig db fuel allow_invalid force d conforms src x l p ys,
  read_document lang_check dig db fuel allow_invalid force d = Ok (Some x) -> rereadable src \/ ~ In Validate l ->
  performs lang_check dig db fuel allow_invalid force d conforms src new_parser l = (p, Ok ys) ->
  exists x', snd (perform lang_check dig db fuel allow_invalid force d conforms src p Parse) = Ok (Parsed (Some x')) /\ same_loaded x x' /\
    (forall t, t <> "schema" -> recorded (md_checks (ld_meta x')) t = recorded (md_checks (ld_meta x)) t) /\
    (In Validate l -> recorded (md_checks (ld_meta x')) "schema" = Some conforms) /\
    (~ In Validate l -> recorded (md_checks (ld_meta x')) "schema" = None).
Proof. exact parse_after. Qed.
Print Assumptions C101_parse_after.
Example C101_parse_after_witness : p_run Named p_asks = Ok
  [Some (inl (inr (Some (txt "6.3.0")))); Some (inl (inl true));
   Some (inr (true, firstn 2 p_found ++ [("schema", false)] ++ skipn 2 p_found));
   Some (inl (inr (Some (txt "6.3.0")))); Some (inl (inl true))].
Proof. exact p_answers. Qed.
Example C101_parse_after_stream : p_run (Opened false) [Version; Parse; Parse; Validate] = Ok
  [Some (inl (inr (Some (txt "6.3.0")))); Some (inr (true, p_found)); Some (inr (true, p_found)); Some (inl (inl true))].
Proof. exact p_stream. Qed.

(** A document that cannot be read is refused in the same way whatever was
    asked before. *)
Theorem C101_fails_the_same : forall lang_check dig db fuel allow_invalid force d conforms src e l p ys,
  read_document lang_check dig db fuel allow_invalid force d = Raise e -> rereadable src \/ ~ In Validate l ->
  performs lang_check dig db fuel allow_invalid force d conforms src new_parser l = (p, Ok ys) ->
  snd (perform lang_check dig db fuel allow_invalid force d conforms src p Parse) = Raise e.
Proof. exact fails_the_same. Qed.
Print Assumptions C101_fails_the_same.
Example C101_fails_the_same_witness : (exists e, read_document every_lang ascii_digit (Some d_db) 30%nat false false p_bad = Raise e) /\
  exists p ys, performs every_lang ascii_digit (Some d_db) 30%nat false false p_bad true Named new_parser [Version; Validate; Version] = (p, Ok ys) /\ length ys = 3%nat.
Proof. split; [exact p_fails|exact p_fails_run]. Qed.

(** Without the condition on the source this is false: an open file is left at
    its end by a validation, and then nothing can be asked. *)
Theorem C101_stream_refuted : exists d x p ys,
  read_document every_lang ascii_digit (Some d_db) 30%nat false true d = Ok (Some x) /\
  performs every_lang ascii_digit (Some d_db) 30%nat false true d true (Opened false) new_parser [Validate] = (p, Ok ys) /\
  exists e, forall a, snd (perform every_lang ascii_digit (Some d_db) 30%nat false true d true (Opened false) p a) = Raise e.
Proof. exact (let '(ex_intro _ p (ex_intro _ ys (conj H K))) := p_validated_stream in ex_intro _ p_doc (ex_intro _ p_loaded (ex_intro _ p (ex_intro _ ys (conj p_reads (conj H K)))))). Qed.
Print Assumptions C101_stream_refuted.

(** The parser that guesses the format cannot tell the Unicode version before
    it has read the LGR. *)
Theorem C101_heuristic_version_refuted : exists d v,
  snd (unicode_version every_lang ascii_digit false d Named new_parser) = Ok (UnicodeVersion v) /\
  heuristic_version every_lang ascii_digit false d new_heuristic = Raise TypeError.
Proof. exact (ex_intro _ p_doc h_version_first). Qed.
Print Assumptions C101_heuristic_version_refuted.

(** Nor does it use the Unicode database it was given before: code points the
    database rules out are read. *)
Theorem C101_heuristic_database_refuted : exists d u e x,
  read_document every_lang ascii_digit (Some u) 30%nat false false d = Raise e /\
  snd (heuristic_parse every_lang ascii_digit 30%nat false false d (heuristic_database u new_heuristic)) = Ok (Some x) /\
  lg_db (ld_lgr x) = None /\ rep_contains (lg_rep (ld_lgr x)) [65%N] = Ok true.
Proof. exact (ex_intro _ upper_doc (ex_intro _ upper_db h_database_ignored)). Qed.
Print Assumptions C101_heuristic_database_refuted.

(** Given afterwards, the LGR read has it. *)
Theorem C101_heuristic_database_after : forall lang_check dig fuel allow_invalid force d p x u,
  snd (heuristic_parse lang_check dig fuel allow_invalid force d p) = Ok (Some x) ->
  exists y, hp_lgr (heuristic_database u (fst (heuristic_parse lang_check dig fuel allow_invalid force d p))) = Some y /\
    lg_db (ld_lgr y) = Some (fst u) /\ lg_rep (ld_lgr y) = lg_rep (ld_lgr x) /\ lg_refs (ld_lgr y) = lg_refs (ld_lgr x) /\
    ld_meta y = ld_meta x /\ ld_rules y = ld_rules x.
Proof. exact h_database_after. Qed.
Print Assumptions C101_heuristic_database_after.
Example C101_heuristic_database_after_witness : exists x, snd (heuristic_parse every_lang ascii_digit 30%nat false false upper_doc new_heuristic) = Ok (Some x).
Proof. exact h_found. Qed.
