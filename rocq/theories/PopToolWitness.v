(** A sample document for the tool that completes the variants. *)
From Verif Require Import Base BaseFacts UtilsModel CharModel RepSpec LgrModel LgrSpec LgrReach MetaModel MetaSpec Rfc7940Model ValidateModel ValidateSpec ValidateProofs PopulateModel PopulateSpec PopulateFinal SerialModel SerialSpec SerialWitness ActionModel
  ClassModel RuleModel RulesXmlModel RulesXmlSpec RulesXmlWitness DocModel DocFinal ReadySpec DocWitness AgainSpec AgainWitness PopToolModel.
Open Scope N_scope.
Open Scope string_scope.
Open Scope list_scope.

(** a -> b under a rule, b -> c d, which is not there. *)
Definition p_data : list data_elem :=
  [DChar (txt "0061") (mkAttrs None None None (Some "0") (Some "v")) [mkVarElem (txt "0062") (Some "blocked") (Some "after") None None None];
   DChar (txt "0062") (mkAttrs (Some "both") None None None None) [mkVarElem (txt "0063 0064") (Some "allocatable") None None None None];
   DRange (txt "0067") (txt "0069") (mkAttrs None None None None (Some "v w")) []].
Definition p_doc : document := mkDocument (Some a_meta) p_data (Some [d_double; d_act; d_vowel; d_after]).
Definition p_loaded : loaded := match read_document every_lang ascii_digit (Some d_db) 30 false false p_doc with Ok (Some x) => x | _ => d_loaded end.
Definition p_tool (rng : option bool) (d : document) : res (option document) := populate_tool every_lang ascii_digit 30 rng (Some d_db) d.
Definition p_printed : document := match p_tool None p_doc with Ok (Some d) => d | _ => p_doc end.
Lemma p_ok : read_document every_lang ascii_digit (Some d_db) 30 false false p_doc = Ok (Some p_loaded).
Proof. vm_compute. reflexivity. Qed.
Lemma p_plain : plain_document p_doc.
Proof. intros ml e E H. apply (a_plain ml e); [exact E|exact H]. Qed.
Lemma p_qualified : Forall qualified (rules_part p_doc).
Proof. exact a_qualified. Qed.
Lemma p_orderly : orderly_names (rules_part p_doc).
Proof. exact a_orderly. Qed.
Lemma p_prints : p_tool None p_doc = Ok (Some p_printed).
Proof. vm_compute. reflexivity. Qed.
Lemma p_reachable : lgr_reachable (ld_lgr p_loaded).
Proof. exact (document_reachable _ _ _ _ _ _ _ _ p_ok). Qed.
Lemma p_calc : populatableb (ld_lgr p_loaded) = true.
Proof. vm_compute. reflexivity. Qed.
Lemma p_populatable : populatable (ld_lgr p_loaded) /\ neat (ld_lgr p_loaded).
Proof. exact (populatableb_spec _ p_reachable p_calc). Qed.
Definition shown (d : document) : list (cps * list cps) := map (fun e => match e with DChar c _ vs => (c, map ve_cp vs) | DRange f _ _ vs => (f, map ve_cp vs) | DOther => ([], []) end) (dc_data d).
Lemma p_shown : shown p_printed = [(txt "0061", [txt "0062"; txt "0063 0064"]); (txt "0062", [txt "0061"; txt "0063 0064"]); (txt "0063 0064", [txt "0061"; txt "0062"]); (txt "0067", [])].
Proof. vm_compute. reflexivity. Qed.
Lemma p_twice : p_tool None p_printed = Ok (Some p_printed).
Proof. vm_compute. reflexivity. Qed.

(** A variant that is a member of a range. *)
Definition q_doc : document := mkDocument (Some a_meta) [DChar (txt "0061") (mkAttrs None None None None None) [mkVarElem (txt "0067") None None None None None];
   DRange (txt "0067") (txt "0069") (mkAttrs None None None None None) []] None.
Lemma q_stops : (exists x, a_read q_doc = Ok (Some x)) /\ p_tool None q_doc = Raise (LGRFormatException RANGE_NO_CHILD).
Proof. split; [eexists|]; vm_compute; reflexivity. Qed.

