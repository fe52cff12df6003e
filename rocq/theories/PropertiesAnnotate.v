(** Theorems about reading label lists (C58) and annotating them (C59).
    Statements only.  [decode] is the IDNA decoder, [rm] the outcome of
    evaluating a rule, both any function. *)
From Verif Require Import Base CharModel RepSpec ActionModel ActionSpec LabelModel LabelSpec UtilsModel CollisionModel CollisionWitness AnnotateModel AnnotateSpec AnnotateRead AnnotateProofs AnnotateWitness.
Open Scope string_scope.
Open Scope list_scope.

(** C58: reading never stops early; each line gives, in order, the reading of
    its text, and nothing when it has none. *)
Theorem C58_each_line : forall decode keep_commented lines, exists groups,
  read_labels decode false keep_commented lines = (concat groups, Ok tt) /\ Forall2 (line_reading decode keep_commented) lines groups.
Proof. exact read_labels_spec. Qed.
Print Assumptions C58_each_line.
(** Every line has one text. *)
Theorem C58_text_of_line : forall line, exists text, content_of line text /\ forall t, content_of line t -> t = text.
Proof. exact (fun line => ex_intro _ (content line) (conj (content_exists line) (fun t H => eq_sym (content_unique line t H)))). Qed.
Print Assumptions C58_text_of_line.
(** Labels given by their code points are read back. *)
Theorem C58_u_plus_notation : forall decode c label, c <> [] -> Forall (fun n => n <= 1114111) c ->
  (read_as decode (format_cp c) label <-> label = c).
Proof. exact reads_format_cp. Qed.
Print Assumptions C58_u_plus_notation.
Theorem C58_hex_notation : forall decode x y c label, Forall (fun n => n <= 1114111) (x :: y :: c) ->
  (read_as decode (join [32] (map cp_to_str (x :: y :: c))) label <-> label = x :: y :: c).
Proof. exact reads_plain_hex. Qed.
Print Assumptions C58_hex_notation.
(** When errors are raised: the same readings up to the first unreadable line. *)
Theorem C58_raising : forall decode keep_commented lines,
  let all := fst (read_labels decode false keep_commented lines) in
  let '(xs, o) := read_labels decode true keep_commented lines in
  (forall x, In x xs -> rd_valid x = true) /\
  match o with
  | Ok _ => xs = all
  | Raise e => exists x rest, all = xs ++ x :: rest /\ rd_valid x = false /\ rd_error x = Some e
  end.
Proof. exact read_labels_raise. Qed.
Print Assumptions C58_raising.
Example C58_nontrivial :
  read_labels toy_decode false false toy_lines =
    ([mkReading (txt "abc") (txt "abc") true None; mkReading (txt "U+0061 U+0062") (txt "ab") true None;
      mkReading (txt "XN--m-0ga") [246; 109] true None; mkReading (txt "a zz") (txt "a zz") false (Some ValueError);
      mkReading (txt "0061") (txt "0061") true None], Ok tt) /\
  length (fst (read_labels toy_decode false true toy_lines)) = 6%nat /\
  snd (read_labels toy_decode true true toy_lines) = Raise ValueError.
Proof. vm_compute. auto. Qed.

(** C59: every readable label is shown with its disposition, followed by each
    code point at fault with the reason, or by the action that refused it
    (partial: unless that action is the first of the LGR). *)
Theorem C59_annotation_partial : forall decode rm r acts lines, (forall s, decode s <> Ok []) -> reachable r -> rules_named r ->
  exists groups, annotate decode rm r acts lines = (concat groups, Ok tt) /\
    Forall2 (annotation rm r acts) (fst (read_labels decode false false lines)) groups.
Proof. exact annotate_spec. Qed.
Print Assumptions C59_annotation_partial.
Theorem C59_first_rule_refuted : exists decode rm r acts line label a,
  (forall s, decode s <> Ok []) /\ reachable r /\ rules_named r /\
  outcome rm r acts label (Some "invalid") [] (Some (0%nat, a)) /\
  annotate decode rm r acts [line] = ([Verdict label (Some "invalid") NoCollision], Ok tt).
Proof. exact first_rule_hidden. Qed.
Print Assumptions C59_first_rule_refuted.
(** With a set of labels: which of them are set aside, and for each label the
    disposition under the script's LGR with the collision (partial: the rule
    shown is left out, see below; only when it ends without an exception). *)
Theorem C59_set_annotation_partial : forall decode rm srm r sr acts sacts index listing set_lines lines out,
  (forall s, decode s <> Ok []) -> reachable r -> reachable sr ->
  lgr_set_annotate decode rm srm r sr acts sacts index listing set_lines lines = (out, Ok tt) ->
  exists kept ns groups, filtered rm r (fst (read_labels decode false false set_lines)) kept ns /\
    out = SetHeader :: ns ++ SetFooter :: concat groups /\
    Forall2 (set_annotation_lines srm sr sacts index listing kept) (fst (read_labels decode false false lines)) groups.
Proof. exact set_annotate_spec. Qed.
Print Assumptions C59_set_annotation_partial.
(** The rule shown is taken from the other LGR. *)
Theorem C59_set_rule_refuted : exists decode rm r sr acts sacts index listing line label i a b,
  (forall s, decode s <> Ok []) /\ reachable r /\ reachable sr /\ (forall x, In x sacts -> In x acts) /\
  outcome rm sr sacts label (Some "invalid") [] (Some (i, b)) /\ a <> b /\
  lgr_set_annotate decode rm rm r sr acts sacts index listing [] [line] =
    ([SetHeader; SetFooter; Verdict label (Some "invalid") NoCollision; ByRule (Z.of_nat i) a], Ok tt).
Proof. exact set_rule_wrong. Qed.
Print Assumptions C59_set_rule_refuted.
Theorem C59_set_completes_refuted : exists decode rm r sr acts sacts index listing line,
  (forall s, decode s <> Ok []) /\ reachable r /\ reachable sr /\ rules_named sr /\
  snd (lgr_set_annotate decode rm rm r sr acts sacts index listing [] [line]) = Raise IndexError.
Proof. exact set_rule_missing. Qed.
Print Assumptions C59_set_completes_refuted.
Example C59_nontrivial :
  (forall s, toy_decode s <> Ok []) /\ reachable toy_rep /\ rules_named toy_rep /\
  annotate toy_decode nothing_holds toy_rep [never_fires; refuse_all] [txt "abcz"; txt "a zz"; txt "ba"] =
    ([Verdict (txt "abcz") (Some "invalid") NoCollision; BreaksRules 99 ["never"]; NotInRepertoire_ 122;
      Refused (txt "a zz") (Some ValueError); Verdict (txt "ba") (Some "invalid") NoCollision; ByRule 1 refuse_all], Ok tt) /\
  lgr_set_annotate toy_decode nothing_holds nothing_holds toy_rep toy_rep [] [] sample_index sample_listing
    [txt "a"; txt "c"; txt "a zz"] [txt "b"; txt "a"] =
    ([SetHeader; SetInvalid (txt "c"); Refused (txt "a zz") (Some ValueError); SetFooter;
      Verdict (txt "b") (Some "valid") Collides; Verdict (txt "a") (Some "valid") InSet], Ok tt).
Proof. split; [exact toy_decode_nonempty|]. split; [apply toy_rep_fine|]. split; [apply toy_rep_fine|]. vm_compute. auto. Qed.
