(** Property theorems about the tools lgr_validate (C81) and lgr_cli (C82).
    Statements only.  [index] and [listing] are those of the merged LGR. *)
From Verif Require Import Base CharModel RepSpec RangeProofs ActionModel ActionSpec LabelModel LabelSpec LabelFinal UtilsModel CollisionModel CollisionSpec CollisionWitness AnnotateModel AnnotateSpec AnnotateWitness CliModel CliSpec CliProofs CliLabel CliTest CliWitness.
Open Scope string_scope.
Open Scope list_scope.

(** C81: an eligible label is shown with its disposition; with a set of labels
    the answer on collisions is the right one. *)
Theorem C81_eligible : forall decode order index listing g label set_labels e,
  usable order index listing set_labels label ->
  test_label_eligible (tl_rules g) (tl_rep g) (tl_actions g) label false = Ok e -> el_ok e = true ->
  exists tail, check_label decode order index listing g label false set_labels =
      (VLabel label :: VEligible true :: VDisposition (el_disp e) :: tail, Ok tt) /\
    (set_labels = [] -> tail = []) /\
    (set_labels <> [] -> exists v, tail = [VCollisions; v] /\ answer index set_labels label v).
Proof. exact label_accepted. Qed.
Print Assumptions C81_eligible.
Theorem C81_one_answer : forall index set_labels label v w,
  answer index set_labels label v -> answer index set_labels label w -> v = w.
Proof. exact answer_unique. Qed.
Print Assumptions C81_one_answer.

(** Another label is shown with the code points at fault and their rules. *)
Theorem C81_refused : forall decode order index listing g, reachable (tl_rep g) -> forall label variants set_labels e,
  rules_named (tl_rep g) ->
  test_label_eligible (tl_rules g) (tl_rep g) (tl_actions g) label false = Ok e -> el_ok e = false ->
  exists tail, check_label decode order index listing g label variants set_labels =
      (VLabel label :: VEligible false :: VDisposition (Some "invalid") :: tail, Ok tt) /\
    refused_lines (tl_rules g) (tl_rep g) label (0 <=? el_idx e)%Z tail.
Proof. exact label_refused. Qed.
Print Assumptions C81_refused.

(** The labels are treated one after the other, up to the first exception. *)
Theorem C81_all_labels : forall decode order index listing g variants set_labels l, exists groups,
  (forall ns o, check_all decode order index listing g variants set_labels l = (ns, o) -> ns = concat groups) /\
  match snd (check_all decode order index listing g variants set_labels l) with
  | Ok _ => Forall2 (fun x gr => check_label decode order index listing g x variants set_labels = (gr, Ok tt)) l groups
  | Raise e => exists l1 x l2 g1 gr, l = l1 ++ x :: l2 /\ groups = g1 ++ [gr] /\
      Forall2 (fun x gr => check_label decode order index listing g x variants set_labels = (gr, Ok tt)) l1 g1 /\
      check_label decode order index listing g x variants set_labels = (gr, Raise e)
  end.
Proof. exact check_all_spec. Qed.
Print Assumptions C81_all_labels.

(** Which LGR of the set is used. *)
Theorem C81_script : forall decode order index listing lgrs script variants set_lines lines,
  (2 <= length lgrs)%nat ->
  let out := validate_tool decode order index listing lgrs script variants set_lines lines in
  (script = "" /\ out = ([VTrouble ScriptRequired], Ok tt)) \/
  (script <> "" /\ (forall x, In x lgrs -> ~ speaks script x) /\ out = ([VTrouble ScriptUnknown], Ok tt)) \/
  (script <> "" /\ exists l1 g l2, lgrs = l1 ++ g :: l2 /\ speaks script g /\ (forall x, In x l2 -> ~ speaks script x) /\
     out = validate_set decode order index listing g variants set_lines lines).
Proof. exact script_chosen. Qed.
Print Assumptions C81_script.
Theorem C81_one_lgr : forall decode order index listing g script variants set_lines lines,
  validate_tool decode order index listing [g] script variants set_lines lines =
  check_all decode order index listing g variants [] lines.
Proof. exact (fun decode order index listing g script variants set_lines lines => eq_refl). Qed.
Print Assumptions C81_one_lgr.

(** With a set: the set labels that are kept, then the answers; a set label
    outside the script's LGR ends the run before any label is looked at. *)
Theorem C81_set : forall decode order index listing g variants set_lines lines, reachable (tl_rep g) ->
  (forall s, decode s <> Ok []) ->
  let texts := fst (read_labels decode false false set_lines) in
  let '(ns, o) := validate_set decode order index listing g variants set_lines lines in
  ((exists x, In x texts /\ outside (tl_rules g) (tl_rep g) x) /\ o = Raise TypeError /\ (forall l, ~ In (VLabel l) ns)) \/
  (exists kept refused ms, set_kept (tl_rules g) (tl_rep g) texts kept refused /\
     check_all decode order index listing g variants kept lines = (ms, o) /\
     ns = VSetHeader :: refused ++ VSetFooter :: ms).
Proof. exact set_tool. Qed.
Print Assumptions C81_set.

Example C81_nontrivial : reachable (tl_rep w_lgr) /\ rules_named (tl_rep w_lgr) /\ (forall s, toy_decode s <> Ok []) /\
  (forall l, In l [txt "b"; txt "da"; txt "d"] -> usable as_given sample_index sample_listing w_set l) /\
  validate_tool toy_decode as_given sample_index sample_listing [w_lgr; w_other; w_lgr] "und-Latn" false
    [txt "a # first"; txt "a zz"; txt "d"] [txt "b"; txt "da"; txt "d"; txt "ax"] =
  ([VSetHeader; VSetRefused (txt "a zz") (Some ValueError); VSetFooter;
    VLabel (txt "b"); VEligible true; VDisposition (Some "valid"); VCollisions; VCollides (txt "a");
    VLabel (txt "da"); VEligible true; VDisposition (Some "valid"); VCollisions; VNone;
    VLabel (txt "d"); VEligible true; VDisposition (Some "valid"); VCollisions; VInSet;
    VLabel (txt "ax"); VEligible false; VDisposition (Some "invalid"); VValidPoints (txt "a"); VInvalidPoints [(120%N, None)]], Ok tt) /\
  fst (validate_tool toy_decode as_given sample_index sample_listing [w_lgr; w_other] "und-Latn" false
    [txt "a"; txt "b"] [txt "d"; txt "c"]) =
  [VSetHeader; VSetFooter;
   VLabel (txt "d"); VEligible true; VDisposition (Some "valid"); VCollisions; VTrouble LabelLost;
   VLabel (txt "c"); VEligible true; VDisposition (Some "valid"); VCollisions; VTrouble ManyInSet].
Proof.
  split; [exact w_reachable|]. split; [exact w_named|]. split; [exact toy_decode_nonempty|]. split; [exact w_usable|].
  split; vm_compute; reflexivity.
Qed.

(** Asked for the variants of an eligible label, the tool fails. *)
Theorem C81_variants_refuted : forall decode order index listing g, reachable (tl_rep g) -> forall label set_labels e,
  usable order index listing set_labels label ->
  test_label_eligible (tl_rules g) (tl_rep g) (tl_actions g) label false = Ok e -> el_ok e = true ->
  let '(ns, o) := check_label decode order index listing g label true set_labels in
  let lines := fst (check_label decode order index listing g label false set_labels) in
  (existsb is_trouble lines = true -> ns = lines /\ o = Ok tt) /\
  (existsb is_trouble lines = false -> ns = lines ++ [VVariants] /\ exists x, o = Raise x /\
     (tl_unidb g = true -> (length label <= 63)%nat -> x = ValueError)).
Proof. exact variants_fail. Qed.
Print Assumptions C81_variants_refuted.
(** A set label that is not in the script's LGR ends the run. *)
Theorem C81_set_label_refuted : exists decode order index listing g set_lines lines,
  reachable (tl_rep g) /\ (forall s, decode s <> Ok []) /\ lines <> [] /\
  validate_set decode order index listing g false set_lines lines = ([VSetHeader], Raise TypeError).
Proof. exact set_label_ends. Qed.
Print Assumptions C81_set_label_refuted.
(** So does an empty line. *)
Theorem C81_empty_line_refuted : forall decode order index listing g variants set_labels rest,
  check_all decode order index listing g variants set_labels ([] :: rest) = ([VLabel []], Raise (LGRApiInvalidParameter "label")).
Proof. exact (fun decode order index listing g variants set_labels rest => eq_refl). Qed.
Print Assumptions C81_empty_line_refuted.
(** A line that stands for a label of the set in one place does not in the other. *)
Theorem C81_a_label_refuted : exists decode order index listing g line label kept ns,
  reachable (tl_rep g) /\ keep_set g (fst (read_labels decode false false [line])) = (ns, Ok kept) /\ In label kept /\
  check_label decode order index listing g label false kept =
    ([VLabel label; VEligible true; VDisposition (Some "valid"); VCollisions; VInSet], Ok tt) /\
  exists tail, check_label decode order index listing g line false kept =
    (VLabel line :: VEligible false :: VDisposition (Some "invalid") :: tail, Ok tt).
Proof. exact a_label_not_read. Qed.
Print Assumptions C81_a_label_refuted.

(** C82: in test mode an eligible label is shown with its disposition, then
    every label listed for it in order, with types, disposition and action. *)
Theorem C82_eligible : forall g, reachable (tl_rep g) -> rules_named (tl_rep g) -> forall invalid label e,
  test_label_eligible (tl_rules g) (tl_rep g) (tl_actions g) label false = Ok e -> el_ok e = true ->
  tl_unidb g = true -> (length label <= 63)%nat ->
  exists zs due ns,
    compute_label_disposition (tl_rules g) (tl_rep g) (tl_actions g) (tl_script g) true label invalid false false [] = (zs, Ok tt) /\
    cli_label g invalid label = (CValidation label true :: CDisposition label (el_disp e) due :: ns, Ok tt) /\
    Forall2 (variant_shown (length (tl_actions g))) zs ns /\
    due = (if (Z.of_nat (length (tl_actions g)) <? el_idx e)%Z
           then (true, (el_idx e - Z.of_nat (length (tl_actions g)))%Z) else (false, el_idx e)).
Proof. exact cli_accepted. Qed.
Print Assumptions C82_eligible.
Theorem C82_refused : forall g, reachable (tl_rep g) -> rules_named (tl_rep g) -> forall invalid label e,
  test_label_eligible (tl_rules g) (tl_rep g) (tl_actions g) label false = Ok e -> el_ok e = false ->
  cli_label g invalid label = ([CValidation label false], Ok tt).
Proof. exact cli_refused. Qed.
Print Assumptions C82_refused.
Theorem C82_fails : forall g invalid label,
  (label = [] -> cli_label g invalid label = ([], Raise (LGRApiInvalidParameter "label"))) /\
  (forall e, test_label_eligible (tl_rules g) (tl_rep g) (tl_actions g) label false = Ok e -> el_ok e = true ->
    tl_unidb g = false \/ (63 < length label)%nat ->
    exists x due, cli_label g invalid label = ([CValidation label true; CDisposition label (el_disp e) due], Raise x) /\
      x = if tl_unidb g then LGRApiInvalidParameter "label" else LGRApiException).
Proof. exact cli_fails. Qed.
Print Assumptions C82_fails.
Theorem C82_all_labels : forall g invalid l, exists groups,
  fst (cli_all g invalid l) = concat groups /\
  match snd (cli_all g invalid l) with
  | Ok _ => Forall2 (fun x gr => cli_label g invalid x = (gr, Ok tt)) l groups
  | Raise e => exists l1 x l2 g1 gr, l = l1 ++ x :: l2 /\ groups = g1 ++ [gr] /\
      Forall2 (fun x gr => cli_label g invalid x = (gr, Ok tt)) l1 g1 /\ cli_label g invalid x = (gr, Raise e)
  end.
Proof. exact cli_all_spec. Qed.
Print Assumptions C82_all_labels.
(** Without the test mode nothing is written; the run ends the same way. *)
Theorem C82_test_mode : forall g invalid l,
  cli_tool g true invalid l = cli_all g invalid l /\ cli_tool g false invalid l = ([], snd (cli_all g invalid l)).
Proof. exact test_mode. Qed.
Print Assumptions C82_test_mode.
(** The action named is the one meant, unless it is the first default action
    (partial: that one is named as an action that the LGR does not have). *)
Theorem C82_action_partial : forall own i a, nth_error (own ++ default_actions) i = Some a ->
  (denotes own (shown_action (length own) (Z.of_nat i)) a <-> i <> length own).
Proof. exact action_named. Qed.
Print Assumptions C82_action_partial.
Theorem C82_action_refuted : exists g invalid label ws w z l1 due l2, reachable (tl_rep g) /\ rules_named (tl_rep g) /\
  label_variants (tl_rules g) (tl_rep g) (tl_script g) label false = Some ws /\ In w ws /\
  judged (tl_rules g) (tl_rep g) (tl_actions g) label w z /\
  ls_idx z = Z.of_nat (length (tl_actions g)) /\
  fst (cli_label g invalid label) = l1 ++ CVariantLine (ls_cp z) ["invalid"] (ls_disp z) due :: l2 /\
  forall a, ~ denotes (tl_actions g) due a.
Proof. exact w_cli_wrong. Qed.
Print Assumptions C82_action_refuted.
Example C82_nontrivial : reachable (tl_rep w_cli) /\ rules_named (tl_rep w_cli) /\
  cli_tool w_cli true true [txt "a"; txt "x"; txt "b"] =
  ([CValidation (txt "a") true; CDisposition (txt "a") (Some "valid") (true, 4%Z);
    CVariantLine (txt "b") ["invalid"] (Some "invalid") (false, 1%Z);
    CVariantLine (txt "c") [] (Some "invalid") (false, (-1)%Z);
    CVariantLine (txt "a") [] (Some "valid") (true, 4%Z);
    CValidation (txt "x") false;
    CValidation (txt "b") true; CDisposition (txt "b") (Some "valid") (true, 4%Z);
    CVariantLine (txt "a") ["blocked"] (Some "blocked") (true, 1%Z);
    CVariantLine (txt "b") [] (Some "valid") (true, 4%Z)], Ok tt).
Proof. split; [apply w_cli_fine|]. split; [apply w_cli_fine|]. exact w_cli_shows. Qed.
