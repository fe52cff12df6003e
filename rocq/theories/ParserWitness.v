From Verif Require Import Base BaseFacts UtilsModel SerialSpec RefModel MetaModel MetaSpec CharModel RepSpec LgrModel ClassModel RuleModel ActionModel Rfc7940Model SerialModel SerialWitness RulesXmlModel DocModel DocWitness AgainWitness ParserModel ParserSpec ParserProofs ParserFinal.
Open Scope string_scope.
Open Scope N_scope.
Open Scope list_scope.

(** Out of order, so that there is something to record. *)
Definition p_doc : document := mkDocument (Some (MUnicodeE (Some (txt "6.3.0")) :: a_meta)) (a_data ++ [DChar (txt "0061") (mkAttrs None None None None None) []]) (Some [d_double; d_act; d_vowel; d_after]).
Definition p_asks : list ask := [Version; Validate; Parse; Version; Validate].
Definition shown_answer (a : answer) : option (bool + option cps + (bool * list report)) :=
  match a with
  | Errors b => Some (inl (inl b))
  | UnicodeVersion v => Some (inl (inr v))
  | Parsed (Some x) => Some (inr (true, md_checks (ld_meta x)))
  | Parsed None => None
  end.
Definition p_run (src : source) (l : list ask) : res (list (option (bool + option cps + (bool * list report)))) :=
  bind (snd (performs every_lang ascii_digit (Some d_db) 30%nat false true p_doc false src new_parser l)) (fun ys => Ok (map shown_answer ys)).
Definition p_found : list report :=
  [("metadata_language", true); ("explicit_unicode_version", true); ("char_ascending_order", false); ("parse_xml", false);
   ("codepoint_valid", false); ("char_strict_ascending_order", true)].
Definition p_loaded : loaded := match read_document every_lang ascii_digit (Some d_db) 30%nat false true p_doc with Ok (Some x) => x | _ => d_loaded end.
Lemma p_reads : read_document every_lang ascii_digit (Some d_db) 30%nat false true p_doc = Ok (Some p_loaded).
Proof. vm_compute. reflexivity. Qed.
Lemma p_says : md_unicode (ld_meta p_loaded) = Some (txt "6.3.0") /\ recorded (md_checks (ld_meta p_loaded)) "char_ascending_order" = Some false /\
  rep_len (lg_rep (ld_lgr p_loaded)) = 8%nat.
Proof. split; [vm_compute; reflexivity|]. split; [vm_compute; reflexivity|]. vm_compute. reflexivity. Qed.
Lemma p_answers : p_run Named p_asks = Ok
  [Some (inl (inr (Some (txt "6.3.0")))); Some (inl (inl true));
   Some (inr (true, firstn 2 p_found ++ [("schema", false)] ++ skipn 2 p_found));
   Some (inl (inr (Some (txt "6.3.0")))); Some (inl (inl true))].
Proof. vm_compute. reflexivity. Qed.
Lemma p_stream : p_run (Opened false) [Version; Parse; Parse; Validate] = Ok
  [Some (inl (inr (Some (txt "6.3.0")))); Some (inr (true, p_found)); Some (inr (true, p_found)); Some (inl (inl true))].
Proof. vm_compute. reflexivity. Qed.
(** ** An open file is not set back after validation *)
Lemma p_validated_stream : exists p ys,
  performs every_lang ascii_digit (Some d_db) 30%nat false true p_doc true (Opened false) new_parser [Validate] = (p, Ok ys) /\
  exists e, forall a, snd (perform every_lang ascii_digit (Some d_db) 30%nat false true p_doc true (Opened false) p a) = Raise e.
Proof. eexists. eexists. split; [vm_compute; reflexivity|]. exists ValueError. intros []; vm_compute; reflexivity. Qed.

(** A document that cannot be read strictly. *)
Definition p_bad : document := mkDocument (Some (MUnicodeE (Some (txt "6.3.0")) :: a_meta)) (a_data ++ [DChar (txt "0061") (mkAttrs None None None None None) []]) None.
Lemma p_fails : exists e, read_document every_lang ascii_digit (Some d_db) 30%nat false false p_bad = Raise e.
Proof. eexists. vm_compute. reflexivity. Qed.
Lemma p_fails_run : exists p ys, performs every_lang ascii_digit (Some d_db) 30%nat false false p_bad true Named new_parser [Version; Validate; Version] = (p, Ok ys) /\ length ys = 3%nat.
Proof. eexists. eexists. split; vm_compute; reflexivity. Qed.

(** ** The heuristic parser *)
Definition upper_db : database := (LgrModel.mkDb (fun c => negb (c =? 65)) (fun _ => "Latn"), snd d_db).
Definition upper_doc : document := mkDocument (Some a_meta) [DChar (txt "0041") (mkAttrs None None None None None) []] None.
Lemma h_version_first : exists v, snd (unicode_version every_lang ascii_digit false p_doc Named new_parser) = Ok (UnicodeVersion v) /\
  heuristic_version every_lang ascii_digit false p_doc new_heuristic = Raise TypeError.
Proof. eexists. split; vm_compute; reflexivity. Qed.
Lemma h_database_ignored : exists e x,
  read_document every_lang ascii_digit (Some upper_db) 30%nat false false upper_doc = Raise e /\
  snd (heuristic_parse every_lang ascii_digit 30%nat false false upper_doc (heuristic_database upper_db new_heuristic)) = Ok (Some x) /\
  lg_db (ld_lgr x) = None /\ rep_contains (lg_rep (ld_lgr x)) [65] = Ok true.
Proof.
  eexists. exists (match read_document every_lang ascii_digit None 30%nat false false upper_doc with Ok (Some x) => x | _ => d_loaded end).
  split; [vm_compute; reflexivity|]. split; [vm_compute; reflexivity|]. split; vm_compute; reflexivity.
Qed.
Lemma h_database_after : forall lang_check dig fuel ai force d p x u,
  snd (heuristic_parse lang_check dig fuel ai force d p) = Ok (Some x) ->
  exists y, hp_lgr (heuristic_database u (fst (heuristic_parse lang_check dig fuel ai force d p))) = Some y /\
    lg_db (ld_lgr y) = Some (fst u) /\ lg_rep (ld_lgr y) = lg_rep (ld_lgr x) /\ lg_refs (ld_lgr y) = lg_refs (ld_lgr x) /\
    ld_meta y = ld_meta x /\ ld_rules y = ld_rules x.
Proof.
  intros lc dig fuel ai force d p x u E. unfold heuristic_parse in *. destruct (read_document _ _ _ _ _ _ _) as [o|e]; [|discriminate]. cbn in E. injection E as ->.
  eexists. split; [reflexivity|]. repeat split.
Qed.
Lemma h_found : exists x, snd (heuristic_parse every_lang ascii_digit 30%nat false false upper_doc new_heuristic) = Ok (Some x).
Proof. destruct h_database_ignored as [e [x [_ [H _]]]]. exists x. exact H. Qed.
