(** Model of tools/rfc7940_validate.py: an LGR document read and validated, and
    the verdict under the policy of the tool.  No proofs here.

    Simplifications: the arguments of the command line are given as values; the
    log is dropped; the RelaxNG validator is an argument (its answer for the
    document).  The results of the schema test are recorded after those of
    reading instead of before, which does not change them: no other test has
    that label (C14_verdict_order_independent). *)
From Verif Require Import Base CharModel ActionModel LgrModel ClassModel RuleModel Rfc7940Model MetaModel SerialModel RulesXmlModel DocModel.
From Verif Require Import ValidateModel RebuildModel CompareModel ChecksModel.
Open Scope string_scope.
Open Scope list_scope.

(** tools/rfc7940_validate.py:49-68. *)
Definition tool_policy : dict string string :=
  [("validity_end_expiry", "ERROR"); ("validity_start_end", "ERROR"); ("validity_started", "ERROR");
   ("metadata_description_type", "ERROR"); ("metadata_scope_type", "ERROR"); ("metadata_language", "ERROR");
   ("metadata_version_integer", "WARNING"); ("data_variant_type", "ERROR"); ("codepoint_valid", "ERROR");
   ("char_ascending_order", "WARNING"); ("char_strict_ascending_order", "IGNORE"); ("ref_attribute_ascending", "WARNING");
   ("standard_dispositions", "ERROR"); ("basic_symmetry", "WARNING"); ("strict_symmetry", "WARNING");
   ("basic_transitivity", "WARNING"); ("parse_xml", "ERROR"); ("schema", "ERROR")].

(** validate/__init__.py:57-64: each check, on the results of the LGR; what is
    raised by the package goes to the summary. *)
Fixpoint run_checks (check : string -> results -> results * res unit) (l : list string) (r : results) : results * res unit :=
  match l with
  | [] => (r, Ok tt)
  | n :: l' =>
      match check n r with
      | (r1, Ok _) => run_checks check l' r1
      | (r1, Raise e) => if is_lgr_exception e then run_checks check l' r1 else (r1, Raise e)
      end
  end.

(** xml_parser.py:193-195: the text of the last <version>; None when the
    element is empty. *)
Fixpoint version_text (l : list meta_elem) (last : option (option cps)) : option (option cps) :=
  match l with
  | [] => last
  | MVersion t _ :: l' => version_text l' (Some t)
  | _ :: l' => version_text l' last
  end.
Definition untexted (d : document) : bool :=
  match dc_meta d with
  | Some ml => match version_text ml None with Some None => true | _ => false end
  | None => false
  end.

(** The Unicode database as the editing operations use it: utils.py:235-243. *)
Definition tool_db (u : ucd) (script : N -> string) : LgrModel.unidb :=
  LgrModel.mkDb (fun c => memb String.eqb (ucd_idna u c) valid_idna_values) script.
(** The LGR as check_miscellaneous uses it. *)
Definition as_doc (x : loaded) : doc :=
  mkDoc "" (ld_lgr x) (ld_meta x) (ru_actions (ld_rules x)) [] [] [] [] [].

Section Tool.
  (** rfc5646.check, \d, mimetypes.types_map.values(), today's date, the
      descriptions of the tests (rfc7940.py:17-38). *)
  Variable lang_check : cps -> option bool.
  Variable dig : N -> bool.
  Variable mime : cps -> bool.
  Variable today : cps.
  Variable desc : string -> string.
  (** The Unicode database (-l), in its several uses; the scripts of the LGR. *)
  Variable u : ucd.
  Variable script : N -> string.
  Variable classes : ClassModel.unidb.
  Variable get_script : LgrModel.unidb -> N -> option string.
  Variable scripts : list string.
  Variable fuel : nat.

  (** The checks of validate/__init__.py:20-32.  check_xml_validity works on a
      copy of the document, with a parser and results of its own
      (xml_validity.py:34-41); writing does not fail.  compute_stats reports
      nothing (lgr_stats.py:15-89), nor does check_conditional_variants.
      metadata.py:76-77: re.match fails on an empty <version>, whose text is
      None. *)
  Definition tool_check (d : document) (x : loaded) (n : string) (r : results) : results * res unit :=
    let quietly {A} (p : list report * res A) := (apply_reports r (fst p), bind (snd p) (fun _ => Ok tt)) in
    if String.eqb n "check_symmetry" then quietly (check_symmetry (ld_lgr x) false)
    else if String.eqb n "check_transitivity" then quietly (check_transitivity (ld_lgr x))
    else if String.eqb n "rebuild_lgr" then
      (r, bind (rebuild_lgr get_script scripts (ld_lgr x) (Some (tool_db u script)) None) (fun _ => Ok tt))
    else if String.eqb n "check_metadata" then
      if untexted d then (r, Raise TypeError)
      else (snd (check_metadata today mime dig (ld_meta x) r), Ok tt)
    else if String.eqb n "check_miscellaneous" then quietly (check_miscellaneous (Some u) (as_doc x))
    else (r, Ok tt).

  (** tools/rfc7940_validate.py:28-75 and lgr/tools/utils.py:351-363: the text
      written.  [rng]: whether a schema is given and, if so, whether the document
      conforms to it. *)
  Definition rfc7940_tool (rng : option bool) (quiet test : bool) (d : document) : res string :=
    match rng with
    | Some false => Ok ("FAIL" ++ nl)%string
    | _ =>
        bind (read_document lang_check dig (Some (tool_db u script, classes)) fuel false true d) (fun o =>
        match o with
        | None => Ok ("FAIL" ++ nl)%string
        | Some x =>
            let r0 := md_checks (ld_meta x) in
            let r1 := match rng with Some _ => report_tested r0 "schema" | None => r0 end in
            let '(r2, done) := if test then (r1, Ok tt) else run_checks (tool_check d x) (initial_checks ++ rfc7940_checks) r1 in
            bind done (fun _ => Ok (get_final_result desc r2 (Some tool_policy) (negb quiet) ++ nl)%string)
        end)
    end.
End Tool.
