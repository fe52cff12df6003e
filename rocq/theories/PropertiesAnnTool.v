(** C94: the annotation tool writes its output file and nothing else; the merge
    tool.  Statements only.  What XMLParser, the schema, merge_lgr_set, the index
    and the listing of an LGR and the text of a line are is any function. *)
From Verif Require Import Base CharModel RepSpec ActionModel ActionSpec LabelModel LabelSpec UtilsModel CollisionModel CollisionWitness
  AnnotateModel AnnotateSpec AnnotateRead AnnotateProofs AnnotateWitness CliModel CliLabel AnnToolModel AnnToolSpec AnnToolProofs AnnToolWitness.
Open Scope N_scope.
Open Scope string_scope.
Open Scope list_scope.

(** One LGR: each label of the file is annotated, into the output file only
    (partial: the two files differ). *)
Theorem C94_one_partial : forall decode read_file schema merge_set index listing render st a f g lines,
  (forall s, decode s <> Ok []) -> an_lgrs a = [f] -> passes schema f -> read_file f = Ok (Some g) ->
  reachable (tl_rep g) -> rules_named (tl_rep g) -> an_labels a <> an_output a -> dget String.eqb (an_labels a) st = Some lines ->
  exists st' groups, annotate_tool decode read_file schema merge_set index listing render st a = (st', Ok None) /\
    only_changed st st' (an_output a) (map render (concat groups)) /\
    Forall2 (annotation (tl_rules g) (tl_rep g) (tl_actions g)) (fst (read_labels decode false false lines)) groups.
Proof. exact one_annotated. Qed.
Print Assumptions C94_one_partial.

(** A set: the labels are annotated with the merged LGR and the last LGR of the
    set whose first language is the script; what was found before an exception
    is in the file. *)
Theorem C94_set_partial : forall decode read_file schema merge_set index listing render st a f1 f2 fs gs m s lines set_lines,
  an_lgrs a = f1 :: f2 :: fs -> an_script a <> "" ->
  members read_file (an_lgrs a) gs -> merge_set gs "merged-lgr-set" = Ok m -> last_speaker (an_script a) gs s ->
  (an_set_labels a = "" /\ set_lines = [] \/ an_set_labels a <> "" /\ dget String.eqb (an_set_labels a) st = Some set_lines) ->
  an_labels a <> an_output a -> dget String.eqb (an_labels a) st = Some lines ->
  exists st' out o, annotate_tool decode read_file schema merge_set index listing render st a = (st', o) /\
    only_changed st st' (an_output a) (map render out) /\
    lgr_set_annotate decode (tl_rules m) (tl_rules s) (tl_rep m) (tl_rep s) (tl_actions m) (tl_actions s) (index m) (listing m) set_lines lines =
      (out, match o with Ok _ => Ok tt | Raise e => Raise e end) /\ (o = Ok None \/ exists e, o = Raise e).
Proof. exact set_annotated. Qed.
Print Assumptions C94_set_partial.

(** The reasons for doing nothing. *)
Theorem C94_nothing_done : forall decode read_file schema merge_set index listing render st a m,
  snd (annotate_tool decode read_file schema merge_set index listing render st a) = Ok (Some m) ->
  fst (annotate_tool decode read_file schema merge_set index listing render st a) = st /\
  match m with
  | NoScriptGiven => an_script a = "" /\ (2 <= length (an_lgrs a))%nat
  | NoSetLabels => False
  | ScriptNotFound => an_script a <> "" /\ exists gs, members read_file (an_lgrs a) gs /\ (2 <= length gs)%nat /\ forall g, In g gs -> ~ speaks (an_script a) g
  | NotReadable => exists f, an_lgrs a = [f] /\ (~ passes schema f \/ read_file f = Ok None)
  end.
Proof. exact nothing_done. Qed.
Print Assumptions C94_nothing_done.
Theorem C94_other_files : forall decode read_file schema merge_set index listing render st a f, f <> an_output a ->
  dget String.eqb f (fst (annotate_tool decode read_file schema merge_set index listing render st a)) = dget String.eqb f st.
Proof. exact others_kept. Qed.
Print Assumptions C94_other_files.
Theorem C94_no_labels : forall decode read_file schema merge_set index listing render st a, dget String.eqb (an_labels a) st = None ->
  fst (annotate_tool decode read_file schema merge_set index listing render st a) = st /\
  forall x, snd (annotate_tool decode read_file schema merge_set index listing render st a) = Ok x -> x <> None.
Proof. exact no_labels. Qed.
Print Assumptions C94_no_labels.
(** A file of the set that holds no LGR ends the run with an exception. *)
Theorem C94_member_fails : forall decode read_file schema merge_set index listing render st a l1 f l2 gs,
  an_lgrs a = l1 ++ f :: l2 -> (2 <= length (an_lgrs a))%nat -> an_script a <> "" ->
  members read_file l1 gs -> read_file f = Ok None ->
  annotate_tool decode read_file schema merge_set index listing render st a = (st, Raise TypeError).
Proof. exact member_unread. Qed.
Print Assumptions C94_member_fails.

(** A label file annotated in place is emptied. *)
Theorem C94_in_place_refuted : exists decode read_file schema merge_set index listing render st a f g lines,
  an_lgrs a = [f] /\ read_file f = Ok (Some g) /\ dget String.eqb (an_labels a) st = Some lines /\ (3 <= length (fst (read_labels decode false false lines)))%nat /\
  reachable (tl_rep g) /\ rules_named (tl_rep g) /\ (forall s, decode s <> Ok []) /\
  exists st', annotate_tool decode read_file schema merge_set index listing render st a = (st', Ok None) /\ dget String.eqb (an_output a) st' = Some [] /\ an_labels a = an_output a.
Proof. exact emptied. Qed.
Print Assumptions C94_in_place_refuted.
Theorem C94_in_place : forall decode read_file schema merge_set index listing render st a f g lines,
  an_lgrs a = [f] -> passes schema f -> read_file f = Ok (Some g) ->
  an_labels a = an_output a -> dget String.eqb (an_labels a) st = Some lines ->
  exists st', annotate_tool decode read_file schema merge_set index listing render st a = (st', Ok None) /\ dget String.eqb (an_labels a) st' = Some [].
Proof. exact in_place. Qed.
Print Assumptions C94_in_place.

(** What the merge tool prints is one quoted line, for the merged LGR of the
    files in the order given... *)
Theorem C94_merge : forall read_file merge_set to_bytes l name,
  match merge_tool read_file merge_set to_bytes l name with
  | Ok OnlyOne => length l = 1%nat
  | Ok (Printed_ text) => length l <> 1%nat /\ exists gs m, members read_file l gs /\
      merge_set gs (if String.eqb name "" then "merged-lgr-set" else name) = Ok m /\
      text = bytes_repr (to_bytes m) ++ [10] /\ ((forall b, In b (to_bytes m) -> b < 256) -> quoted text)
  | Raise e => length l <> 1%nat
  end.
Proof. exact merge_prints. Qed.
Print Assumptions C94_merge.
(** ... and so never the document. *)
Theorem C94_merge_output_refuted : forall read_file merge_set to_bytes l name text m gs, members read_file l gs ->
  merge_set gs (if String.eqb name "" then "merged-lgr-set" else name) = Ok m ->
  merge_tool read_file merge_set to_bytes l name = Ok (Printed_ text) ->
  forall rest, to_bytes m = 60 :: rest -> forall more, text <> to_bytes m ++ more.
Proof. exact merge_no_document. Qed.
Print Assumptions C94_merge_output_refuted.

Example C94_sample :
  (forall s, toy_decode s <> Ok []) /\ reachable (tl_rep (toy_lgr ["fr"])) /\ rules_named (tl_rep (toy_lgr ["fr"])) /\
  toy_tool toy_store (mkAnn ["fr.xml"] "" "" "labels" "out") =
    ([("labels", [txt "abcz"; txt "a zz"; txt "ba"]);
      ("out", [txt "abcz:"; [32; 66; 99]; [32; 78; 122]; txt "a zz:!"; txt "ba:"; [32; 82]]); ("set", [txt "a"])], Ok None) /\
  toy_tool toy_store (mkAnn ["fr.xml"; "de.xml"] "de" "set" "labels" "out") =
    ([("labels", [txt "abcz"; txt "a zz"; txt "ba"]);
      ("out", [txt "##"; txt "#"; txt "abcz:"; [32; 66; 99]; [32; 78; 122]; txt "a zz:!"; txt "ba:"; [32; 82]]); ("set", [txt "a"])], Ok None) /\
  toy_tool toy_store (mkAnn ["fr.xml"; "de.xml"] "und-Latn" "set" "labels" "out") = (toy_store, Ok (Some ScriptNotFound)) /\
  toy_tool toy_store (mkAnn ["fr.xml"; "de.xml"] "" "set" "labels" "out") = (toy_store, Ok (Some NoScriptGiven)) /\
  toy_tool toy_store (mkAnn ["bad.xml"] "" "" "labels" "out") = (toy_store, Ok (Some NotReadable)) /\
  toy_tool toy_store (mkAnn ["fr.xml"; "no.xml"] "fr" "" "labels" "out") = (toy_store, Raise TypeError) /\
  toy_tool toy_store (mkAnn ["fr.xml"] "" "" "missing" "out") = (toy_store, Raise (KeyErrorStr "missing")) /\
  merge_tool toy_files toy_merge toy_bytes ["fr.xml"; "de.xml"] "" = Ok (Printed_ (txt "b'<\'""\xc3\n>'" ++ [10])) /\
  merge_tool toy_files toy_merge toy_bytes ["fr.xml"] "" = Ok OnlyOne.
Proof. exact toy_runs. Qed.
