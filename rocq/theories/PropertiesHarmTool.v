(** Property theorems about the harmonization tool (C89).  Statements only. *)
From Verif Require Import Base UtilsModel CharModel RepSpec LgrModel LgrSpec MetaModel MetaSpec ValidateSpec SerialModel SerialSpec SerialWitness RulesXmlModel RulesXmlSpec DocModel ReadySpec DocWitness
  AgainSpec AgainWitness HarmonizeModel HarmonizeSpec HarmonizeWitness PopToolModel PopToolWitness HarmToolModel HarmToolSpec HarmToolProofs HarmToolFinal HarmToolWitness.
Open Scope N_scope.
Open Scope string_scope.
Open Scope list_scope.

(** Given two files with different names, each with an LGR that can be read
    strictly, the tool always succeeds.  It writes two files, named after those
    given, and touches no other.  Each can be read strictly with the same database
    and is the LGR it comes from with its variants completed by those of the
    other; the code points that only one LGR has are listed. *)
Theorem C89_writes : forall lang dig, dig 46 = false -> (forall c, ascii_digit c = true -> dig c = true) ->
  forall fuel order, rearranges order -> forall library schema db first second n1 n2 o1 o2 dir x1 x2,
  accepted schema (library first) -> accepted schema (library second) ->
  sound_document lang dig db fuel (library first) x1 -> sound_document lang dig db fuel (library second) x2 ->
  file_name first n1 -> file_name second n2 -> n1 <> n2 -> result_name n1 o1 -> result_name n2 o2 ->
  exists dir' d1 d2 x1' x2' r1 r2 k1 k2,
    harmonize_tool lang dig fuel order library schema db first second None dir = (dir', Ok
      ([txt "Manual review needed for code points from first LGR:"] ++ k1 ++ [txt "Manual review needed for code points from second LGR:"] ++ k2)) /\
    dget String.eqb o1 dir' = Some d1 /\ dget String.eqb o2 dir' = Some d2 /\ (forall n, n <> o1 -> n <> o2 -> dget String.eqb n dir' = dget String.eqb n dir) /\
    read_document lang dig db fuel false false d1 = Ok (Some x1') /\ carried_over x1 x1' /\ completed (lg_rep (ld_lgr x1)) (lg_rep (ld_lgr x2)) (lg_rep (ld_lgr x1')) /\
    read_document lang dig db fuel false false d2 = Ok (Some x2') /\ carried_over x2 x2' /\ completed (lg_rep (ld_lgr x2)) (lg_rep (ld_lgr x1)) (lg_rep (ld_lgr x2')) /\
    only_in (lg_rep (ld_lgr x1)) (lg_rep (ld_lgr x2)) r1 /\ lines_for r1 k1 /\ only_in (lg_rep (ld_lgr x2)) (lg_rep (ld_lgr x1)) r2 /\ lines_for r2 k2.
Proof. exact tool_writes. Qed.
Print Assumptions C89_writes.
(** With a root zone, both are first completed by it, and the results agree on
    the variants of the code points they share. *)
Theorem C89_root : forall lang dig, dig 46 = false -> (forall c, ascii_digit c = true -> dig c = true) ->
  forall fuel order, rearranges order -> forall library schema db first second root zx n1 n2 o1 o2 dir x1 x2,
  accepted schema (library first) -> accepted schema (library second) -> accepted schema (library root) -> root <> "" ->
  sound_document lang dig db fuel (library first) x1 -> sound_document lang dig db fuel (library second) x2 -> sound_document lang dig db fuel (library root) zx ->
  file_name first n1 -> file_name second n2 -> n1 <> n2 -> result_name n1 o1 -> result_name n2 o2 ->
  exists dir' d1 d2 x1' x2' m1 m2 k1 k2,
    harmonize_tool lang dig fuel order library schema db first second (Some root) dir = (dir', Ok
      ([txt "Manual review needed for code points from first LGR:"] ++ k1 ++ [txt "Manual review needed for code points from second LGR:"] ++ k2)) /\
    dget String.eqb o1 dir' = Some d1 /\ dget String.eqb o2 dir' = Some d2 /\ (forall n, n <> o1 -> n <> o2 -> dget String.eqb n dir' = dget String.eqb n dir) /\
    read_document lang dig db fuel false false d1 = Ok (Some x1') /\ carried_over x1 x1' /\ read_document lang dig db fuel false false d2 = Ok (Some x2') /\ carried_over x2 x2' /\
    completed (lg_rep (ld_lgr x1)) (lg_rep (ld_lgr zx)) m1 /\ completed (lg_rep (ld_lgr x2)) (lg_rep (ld_lgr zx)) m2 /\
    completed m1 m2 (lg_rep (ld_lgr x1')) /\ completed m2 m1 (lg_rep (ld_lgr x2')) /\
    (exists r1 r2, only_in m1 m2 r1 /\ lines_for r1 k1 /\ only_in m2 m1 r2 /\ lines_for r2 k2) /\
    (forall a b, a <> b -> lookup (lg_rep (ld_lgr x1')) a <> None -> lookup (lg_rep (ld_lgr x2')) a <> None ->
       (has_target (lg_rep (ld_lgr x1')) a b <-> has_target (lg_rep (ld_lgr x2')) a b)).
Proof. exact tool_agrees. Qed.
Print Assumptions C89_root.
Example C89_nontrivial : rearranges as_is /\ (forall d, accepted None d) /\
  sound_document every_lang ascii_digit (Some d_db) 30 (shelf "in/p.xml") p_loaded /\ sound_document every_lang ascii_digit (Some d_db) 30 (shelf "in/a.xml") a_loaded /\
  sound_document every_lang ascii_digit (Some d_db) 30 (shelf "zone.xml") z_loaded /\
  file_name "in/p.xml" "p.xml" /\ file_name "in/a.xml" "a.xml" /\ "p.xml" <> "a.xml" /\ result_name "p.xml" "p_harmonized.xml" /\ result_name "a.xml" "a_harmonized.xml" /\
  result_name "table" "table_harmonized".
Proof. exact (conj as_is_rearranges (conj any_schema (conj sound_p (conj sound_a (conj sound_z w_names))))). Qed.
(** The files, with their code points, and the lines. *)
Example C89_nontrivial_files : map (fun p => (fst p, map fst (snd p))) (listing (w_tool None "in/p.xml" "in/a.xml" None old_dir)) =
  [("a_harmonized.xml", map txt ["0061"; "0061 0063"; "0061 0062"; "0062"; "0063"; "0063 0064"; "0064"; "0065"; "0066"]);
   ("notes", map txt ["0061"; "0067"]);
   ("p_harmonized.xml", map txt ["0061"; "0062"; "0063"; "0063 0064"; "0067"; "0068"; "0069"])].
Proof. exact w_two. Qed.
Example C89_nontrivial_lines : snd (w_tool None "in/p.xml" "in/a.xml" None old_dir) = Ok (map txt
  ["Manual review needed for code points from first LGR:"; "- U+0067 (g)"; "- U+0068 (h)"; "- U+0069 (i)";
   "Manual review needed for code points from second LGR:"; "- U+0061 U+0063 (ac)"; "- U+0061 U+0062 (ab)"; "- U+0063 (c)"; "- U+0064 (d)"; "- U+0065 (e)"; "- U+0066 (f)"]).
Proof. exact w_lines. Qed.

(** Every path has one name, every name one name for its result, and different
    names have different ones. *)
Theorem C89_names : (forall path, exists n, file_name path n /\ forall m, file_name path m -> m = n) /\
  (forall n, exists o, result_name n o /\ forall p, result_name n p -> p = o) /\ (forall n m o, result_name n o -> result_name m o -> n = m).
Proof. exact names_unique. Qed.
Print Assumptions C89_names.
(** When the tool fails no file is written. *)
Theorem C89_fails : forall lang dig fuel order library schema db first second root dir dir' e,
  harmonize_tool lang dig fuel order library schema db first second root dir = (dir', Raise e) -> dir' = dir.
Proof. exact tool_fails. Qed.
Print Assumptions C89_fails.
Example C89_fails_nontrivial : w_tool (Some (fun _ => false)) "in/p.xml" "in/a.xml" None old_dir = (old_dir, Raise TypeError).
Proof. reflexivity. Qed.

(** Refuted: that there are two results.  Of two files with the same name in
    different directories, only the result for the second is left: here, without
    the code point U+0067 of the first. *)
Theorem C89_same_name_refuted : exists first second dir dir' lines n o, first <> second /\ file_name first n /\ file_name second n /\ result_name n o /\
  sound_document every_lang ascii_digit (Some d_db) 30 (shelf first) p_loaded /\ sound_document every_lang ascii_digit (Some d_db) 30 (shelf second) a_loaded /\
  w_tool None first second None dir = (dir', Ok lines) /\
  (forall m, m <> o -> dget String.eqb m dir' = dget String.eqb m dir) /\ exists d, dget String.eqb o dir' = Some d /\ forall x', a_read d = Ok (Some x') -> lookup (lg_rep (ld_lgr x')) [103] = None.
Proof. exact lost_refuted. Qed.
Print Assumptions C89_same_name_refuted.
(** Refuted: that a root zone that was asked for is used.  If the schema refuses
    it, the tool does as if it had not been given. *)
Theorem C89_root_ignored_refuted : forall lang dig fuel order library schema db valid first second root dir, schema = Some valid -> valid (library root) = false ->
  harmonize_tool lang dig fuel order library schema db first second (Some root) dir = harmonize_tool lang dig fuel order library schema db first second None dir.
Proof. exact tool_root_ignored. Qed.
Print Assumptions C89_root_ignored_refuted.
(** The variants of U+0061 with the root zone, and without because it is refused. *)
Example C89_root_ignored_nontrivial :
  of_a (dget String.eqb "p_harmonized.xml" (fst (w_tool None "in/p.xml" "in/a.xml" (Some "zone.xml") old_dir))) = map txt ["0062"; "0063"; "0063 0064"; "0067"] /\
  no_zone (shelf "zone.xml") = false /\
  of_a (dget String.eqb "p_harmonized.xml" (fst (w_tool (Some no_zone) "in/p.xml" "in/a.xml" (Some "zone.xml") old_dir))) = map txt ["0062"; "0063"; "0063 0064"].
Proof. exact (conj (proj1 w_root) (conj (proj1 w_ignored) (proj2 (proj2 w_ignored)))). Qed.
(** Refuted: that an LGR the schema refuses is reported.  The tool stops with an
    error of its own. *)
Theorem C89_refused_refuted : forall lang dig fuel order library schema db valid first second dir, schema = Some valid -> valid (library first) = false ->
  (exists p, parse lang dig fuel library schema db second = Ok p) -> harmonize_tool lang dig fuel order library schema db first second None dir = (dir, Raise TypeError).
Proof. exact tool_refused. Qed.
Print Assumptions C89_refused_refuted.
