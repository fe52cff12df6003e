(** Samples for the annotation tool and the merge tool. *)
From Verif Require Import Base BaseFacts CharModel RepSpec ActionModel ActionSpec LabelModel LabelSpec UtilsModel CollisionModel CollisionWitness
  AnnotateModel AnnotateSpec AnnotateRead AnnotateProofs AnnotateWitness CliModel CliLabel AnnToolModel AnnToolSpec AnnToolProofs.
Open Scope N_scope.
Open Scope string_scope.
Open Scope list_scope.

Definition toy_lgr (langs : list string) : tool_lgr := mkTl langs true nothing_holds toy_rep [never_fires; refuse_all] (fun _ => "Latin").
Definition toy_files (f : string) : res (option tool_lgr) :=
  if String.eqb f "fr.xml" then Ok (Some (toy_lgr ["fr"; "und-Latn"])) else if String.eqb f "de.xml" then Ok (Some (toy_lgr ["de"])) else Ok None.
Definition toy_merge (l : list tool_lgr) (name : string) : res tool_lgr := match l with g :: _ => Ok g | [] => Raise ValueError end.
Definition toy_render (n : note) : cps :=
  match n with
  | Refused t _ => t ++ [58; 33]
  | Verdict l _ _ => l ++ [58]
  | ByRule _ _ => [32; 82]
  | NotInRepertoire_ x => [32; 78; x]
  | BreaksRules x _ => [32; 66; x]
  | SetHeader => [35; 35] | SetFooter => [35] | SetInvalid l => 35 :: l
  end.
Definition toy_store : files := [("labels", [txt "abcz"; txt "a zz"; txt "ba"]); ("out", [txt "old"]); ("set", [txt "a"])].
Definition toy_tool := annotate_tool toy_decode toy_files (Some (fun f => negb (String.eqb f "bad.xml"))) toy_merge (fun _ => sample_index) (fun _ => sample_listing) toy_render.
Definition toy_bytes (g : tool_lgr) : list N := [60; 39; 34; 195; 10; 62].
Lemma toy_runs :
  (forall s, toy_decode s <> Ok []) /\ reachable (tl_rep (toy_lgr ["fr"])) /\ rules_named (tl_rep (toy_lgr ["fr"])) /\
  toy_tool toy_store (mkAnn ["fr.xml"] "" "" "labels" "out") =
    ([("labels", [txt "abcz"; txt "a zz"; txt "ba"]);
      ("out", [txt "abcz:"; [32; 66; 99]; [32; 78; 122]; txt "a zz:!"; txt "ba:"; [32; 82]]); ("set", [txt "a"])], Ok None) /\
  toy_tool toy_store (mkAnn ["fr.xml"; "de.xml"] "de" "set" "labels" "out") =
    ([("labels", [txt "abcz"; txt "a zz"; txt "ba"]);
      ("out", [txt "##"; txt "#"; txt "abcz:"; [32; 66; 99]; [32; 78; 122]; txt "a zz:!"; txt "ba:"; [32; 82]]); ("set", [txt "a"])], Ok None) /\
  toy_tool toy_store (mkAnn ["fr.xml"; "de.xml"] "und-Latn" "set" "labels" "out") = (toy_store, Ok (Some ScriptNotFound)) /\
  toy_tool toy_store (mkAnn ["fr.xml"; "de.xml"] "" "set" "labels" "out") = (toy_store, Ok (Some NoScriptGiven)) /\
  toy_tool toy_store (mkAnn ["bad.xml"] "" "" "labels" "out") = (toy_store, Ok (Some NotReadable)) /\
  toy_tool toy_store (mkAnn ["fr.xml"; "no.xml"] "fr" "" "labels" "out") = (toy_store, Raise TypeError) /\
  toy_tool toy_store (mkAnn ["fr.xml"] "" "" "missing" "out") = (toy_store, Raise (KeyErrorStr "missing")) /\
  merge_tool toy_files toy_merge toy_bytes ["fr.xml"; "de.xml"] "" = Ok (Printed_ (txt "b'<\'""\xc3\n>'" ++ [10])) /\
  merge_tool toy_files toy_merge toy_bytes ["fr.xml"] "" = Ok OnlyOne.
Proof.
  split; [exact toy_decode_nonempty|]. split; [apply toy_rep_fine|]. split; [apply toy_rep_fine|]. vm_compute. repeat split; reflexivity.
Qed.
Lemma emptied : exists decode read_file schema merge_set index listing render st a f g lines,
  an_lgrs a = [f] /\ read_file f = Ok (Some g) /\ dget String.eqb (an_labels a) st = Some lines /\ (3 <= length (fst (read_labels decode false false lines)))%nat /\
  reachable (tl_rep g) /\ rules_named (tl_rep g) /\ (forall s, decode s <> Ok []) /\
  exists st', annotate_tool decode read_file schema merge_set index listing render st a = (st', Ok None) /\ dget String.eqb (an_output a) st' = Some [] /\ an_labels a = an_output a.
Proof.
  exists toy_decode, toy_files, None, toy_merge, (fun _ => sample_index), (fun _ => sample_listing), toy_render, toy_store, (mkAnn ["fr.xml"] "" "" "labels" "labels"), "fr.xml", (toy_lgr ["fr"; "und-Latn"]), [txt "abcz"; txt "a zz"; txt "ba"].
  split; [reflexivity|]. split; [reflexivity|]. split; [reflexivity|]. split; [vm_compute; repeat constructor|]. split; [apply toy_rep_fine|]. split; [apply toy_rep_fine|].
  split; [exact toy_decode_nonempty|]. eexists. split; [vm_compute; reflexivity|]. split; reflexivity.
Qed.
