(** Files for the harmonization tool. *)
From Verif Require Import Base BaseFacts UtilsModel CharModel RepSpec LgrModel MetaModel MetaSpec SerialModel SerialSpec SerialWitness
  ClassModel RuleModel RulesXmlModel RulesXmlSpec DocModel ReadySpec DocWitness AgainSpec AgainWitness HarmonizeModel HarmonizeSpec HarmonizeWitness PopToolModel PopToolWitness HarmToolModel HarmToolSpec HarmToolProofs HarmToolFinal.
Open Scope N_scope.
Open Scope string_scope.
Open Scope list_scope.

(** A root zone that maps a and g to each other. *)
Definition z_doc : document := mkDocument (Some a_meta)
  [DChar (txt "0061") (mkAttrs None None None None None) [mkVarElem (txt "0067") (Some "blocked") None None None None];
   DChar (txt "0067") (mkAttrs None None None None None) [mkVarElem (txt "0061") (Some "blocked") None None None None]] (Some []).
Definition shelf (path : string) : document :=
  if String.eqb path "in/p.xml" then p_doc else if String.eqb path "zone.xml" then z_doc else a_doc.
Notation w_tool schema := (harmonize_tool every_lang ascii_digit 30 as_is shelf schema (Some d_db)).
Definition z_loaded : loaded := match a_read z_doc with Ok (Some x) => x | _ => d_loaded end.

Lemma sound_p : sound_document every_lang ascii_digit (Some d_db) 30 p_doc p_loaded.
Proof. exact (conj p_ok (conj p_plain (conj p_qualified (fun _ => p_orderly)))). Qed.
Lemma sound_a : sound_document every_lang ascii_digit (Some d_db) 30 a_doc a_loaded.
Proof. split; [vm_compute; reflexivity|]. exact (conj a_plain (conj a_qualified (fun _ => a_orderly))). Qed.
Lemma sound_z : sound_document every_lang ascii_digit (Some d_db) 30 z_doc z_loaded.
Proof.
  split; [vm_compute; reflexivity|]. split; [intros ml e E H; apply (a_plain ml e); [exact E|exact H]|]. split; [constructor|]. intros _. split; [apply each_onceb_sound; reflexivity|]. split; [apply each_onceb_sound; reflexivity|]. intros e n [].
Qed.
Lemma any_schema : forall d, accepted None d. Proof. intros d valid E. discriminate. Qed.
Definition listing (x : dict string document * res (list cps)) : list (string * list (cps * list cps)) := map (fun p => (fst p, shown (snd p))) (fst x).
Definition old_dir : dict string document := [("a_harmonized.xml", z_doc); ("notes", z_doc)].
Lemma w_two : map (fun p => (fst p, map fst (snd p))) (listing (w_tool None "in/p.xml" "in/a.xml" None old_dir)) =
  [("a_harmonized.xml", map txt ["0061"; "0061 0063"; "0061 0062"; "0062"; "0063"; "0063 0064"; "0064"; "0065"; "0066"]);
   ("notes", map txt ["0061"; "0067"]);
   ("p_harmonized.xml", map txt ["0061"; "0062"; "0063"; "0063 0064"; "0067"; "0068"; "0069"])].
Proof. vm_compute. reflexivity. Qed.
Lemma w_lines : snd (w_tool None "in/p.xml" "in/a.xml" None old_dir) = Ok (map txt
  ["Manual review needed for code points from first LGR:"; "- U+0067 (g)"; "- U+0068 (h)"; "- U+0069 (i)";
   "Manual review needed for code points from second LGR:"; "- U+0061 U+0063 (ac)"; "- U+0061 U+0062 (ab)"; "- U+0063 (c)"; "- U+0064 (d)"; "- U+0065 (e)"; "- U+0066 (f)"]).
Proof. vm_compute. reflexivity. Qed.
(** The variants of a in both results. *)
Definition of_a (d : option document) : list cps := match d with Some x => match shown x with (_, vs) :: _ => vs | [] => [] end | None => [] end.
Lemma w_root : let r := fst (w_tool None "in/p.xml" "in/a.xml" (Some "zone.xml") old_dir) in
  of_a (dget String.eqb "p_harmonized.xml" r) = map txt ["0062"; "0063"; "0063 0064"; "0067"] /\ of_a (dget String.eqb "a_harmonized.xml" r) = map txt ["0062"; "0063"; "0063 0064"; "0067"].
Proof. vm_compute. split; reflexivity. Qed.
(** A schema that refuses the root zone. *)
Definition no_zone (d : document) : bool := negb (Nat.eqb (length (dc_data d)) 2).
Lemma w_ignored : let r := fst (w_tool (Some no_zone) "in/p.xml" "in/a.xml" (Some "zone.xml") old_dir) in
  no_zone (shelf "zone.xml") = false /\ snd (w_tool (Some no_zone) "in/p.xml" "in/a.xml" (Some "zone.xml") old_dir) <> Raise TypeError /\
  of_a (dget String.eqb "p_harmonized.xml" r) = map txt ["0062"; "0063"; "0063 0064"].
Proof. vm_compute. repeat split; discriminate. Qed.
Lemma w_lost : file_name "in/p.xml" "p.xml" /\ file_name "p.xml" "p.xml" /\ shelf "in/p.xml" <> shelf "p.xml" /\
  map fst (fst (w_tool None "in/p.xml" "p.xml" None old_dir)) = ["a_harmonized.xml"; "notes"; "p_harmonized.xml"] /\ exists l, snd (w_tool None "in/p.xml" "p.xml" None old_dir) = Ok l.
Proof. split; [apply base_file; reflexivity|]. split; [apply base_file; reflexivity|]. split; [discriminate|]. split; [vm_compute; reflexivity|]. eexists. vm_compute. reflexivity. Qed.
Lemma w_names : file_name "in/p.xml" "p.xml" /\ file_name "in/a.xml" "a.xml" /\ "p.xml" <> "a.xml" /\ result_name "p.xml" "p_harmonized.xml" /\ result_name "a.xml" "a_harmonized.xml" /\ result_name "table" "table_harmonized".
Proof.
  split; [apply base_file; reflexivity|]. split; [apply base_file; reflexivity|]. split; [discriminate|]. split; [exact (result_xml "p")|]. split; [exact (result_xml "a")|].
  exact (output_result "table").
Qed.
Definition w_dir : dict string document := fst (w_tool None "in/p.xml" "p.xml" None old_dir).
Definition w_out : list cps := match snd (w_tool None "in/p.xml" "p.xml" None old_dir) with Ok l => l | Raise _ => [] end.
Lemma w_run : w_tool None "in/p.xml" "p.xml" None old_dir = (w_dir, Ok w_out).
Proof. vm_compute. reflexivity. Qed.
Definition w_file : document := match dget String.eqb "p_harmonized.xml" w_dir with Some d => d | None => a_doc end.
Lemma w_there : dget String.eqb "p_harmonized.xml" w_dir = Some w_file.
Proof. vm_compute. reflexivity. Qed.
Definition w_read : loaded := match a_read w_file with Ok (Some y) => y | _ => a_loaded end.
Lemma w_reads : a_read w_file = Ok (Some w_read).
Proof. vm_compute. reflexivity. Qed.
Lemma w_no_g : lookup (lg_rep (ld_lgr w_read)) [103] = None.
Proof. vm_compute. reflexivity. Qed.
Lemma same_read : forall x y : loaded, Ok (Some x) = Ok (Some y) -> x = y.
Proof. intros x y E. injection E as E. exact E. Qed.
Lemma w_gone : forall x', a_read w_file = Ok (Some x') -> lookup (lg_rep (ld_lgr x')) [103] = None.
Proof. intros x' R. assert (E : x' = w_read) by (apply same_read; transitivity (a_read w_file); [symmetry; exact R|exact w_reads]). rewrite E. exact w_no_g. Qed.
Lemma w_others : forall m, m <> "p_harmonized.xml" -> dget String.eqb m w_dir = dget String.eqb m old_dir.
Proof. intros m N. eapply tool_same_name; [exact (proj1 w_lost)|exact (proj1 (proj2 w_lost))|exact (result_xml "p")|exact w_run|exact N]. Qed.
Lemma lost_refuted : exists first second dir dir' lines n o, first <> second /\ file_name first n /\ file_name second n /\ result_name n o /\
  sound_document every_lang ascii_digit (Some d_db) 30 (shelf first) p_loaded /\ sound_document every_lang ascii_digit (Some d_db) 30 (shelf second) a_loaded /\
  w_tool None first second None dir = (dir', Ok lines) /\
  (forall m, m <> o -> dget String.eqb m dir' = dget String.eqb m dir) /\ exists d, dget String.eqb o dir' = Some d /\ forall x', a_read d = Ok (Some x') -> lookup (lg_rep (ld_lgr x')) [103] = None.
Proof.
  exists "in/p.xml", "p.xml", old_dir, w_dir, w_out, "p.xml", "p_harmonized.xml".
  split; [discriminate|]. split; [exact (proj1 w_lost)|]. split; [exact (proj1 (proj2 w_lost))|]. split; [exact (result_xml "p")|]. split; [exact sound_p|]. split; [exact sound_a|]. split; [exact w_run|].
  split; [exact w_others|]. exists w_file. split; [exact w_there|exact w_gone].
Qed.
