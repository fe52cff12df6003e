(** The review tool (C90). *)
From Coq Require Import Permutation.
From Verif Require Import Base UtilsModel CharModel RepSpec LgrModel LgrSpec LgrReach ValidateSpec GeneralModel GeneralSpec WholeModel WholeSpec WholeTotal WholeWitness HarmToolSpec RevToolModel RevToolSpec RevToolProofs RevToolFinal RevToolWitness.
Open Scope string_scope.
Open Scope list_scope.

(** C90: when the files given can be read and no two pairs share a file name, a
    tool that succeeds has written for each table and each reference a file with the
    review of that pair, and touched no other file. *)
Theorem C90_exact : forall worlds today read order tables refs dir dir' sk, (forall l, Permutation (order l) l) -> separate tables refs ->
  review_tool worlds today order read tables refs dir = (dir', Ok sk) ->
  (forall t r f, In t tables -> In r refs -> report_of t r f -> exists c, dget String.eqb f dir' = Some c /\ holds_review worlds today read t r c) /\
  (forall f, (forall t r, In t tables -> In r refs -> ~ report_of t r f) -> dget String.eqb f dir' = dget String.eqb f dir) /\
  forall p, In p sk <-> In p (refs ++ tables) /\ read p = Ok None.
Proof. exact tool_exact. Qed.
Print Assumptions C90_exact.
Example C90_exact_ex : separate ["in/x.xml"; "in/y.xml"] ["ref/z.xml"; "in/x.xml"] /\ heads w_dir =
  [("kept.json", None);
   ("x.xml_z.xml.json", Some (mkHeader w_today ("x.xml", Some (txt "1")) (Some ("z.xml", Some (txt "2")))));
   ("x.xml_x.xml.json", Some (mkHeader w_today ("x.xml", Some (txt "1")) (Some ("x.xml", Some (txt "1")))));
   ("y.xml_z.xml.json", Some (mkHeader w_today ("y.xml", None) (Some ("z.xml", Some (txt "2")))));
   ("y.xml_x.xml.json", Some (mkHeader w_today ("y.xml", None) (Some ("x.xml", Some (txt "1")))))].
Proof. exact (conj w_separate w_heads). Qed.

(** C90: it succeeds when all files can be read and each review completes; then
    nothing is announced as skipped. *)
Theorem C90_completes : forall worlds today read order tables refs dir, (forall l, Permutation (order l) l) -> readable read tables -> readable read refs ->
  completing worlds read tables refs -> exists dir', review_tool worlds today order read tables refs dir = (dir', Ok []).
Proof. exact tool_completes. Qed.
Print Assumptions C90_completes.
Example C90_completes_ex : (forall l : list string, Permutation (rev l) l) /\ readable w_files ["in/x.xml"; "in/y.xml"] /\ readable w_files ["ref/z.xml"; "in/x.xml"] /\
  completing w_worlds w_files ["in/x.xml"; "in/y.xml"] ["ref/z.xml"; "in/x.xml"].
Proof. exact (conj rev_order (conj (proj1 w_readable) (conj (proj2 w_readable) (w_completing _ _)))). Qed.

(** C90: the order in which the sets of files come does not matter. *)
Theorem C90_any_order : forall worlds today read order order' tables refs dir, (forall l, Permutation (order l) l) -> (forall l, Permutation (order' l) l) -> separate tables refs ->
  readable read tables -> readable read refs -> completing worlds read tables refs ->
  forall f, dget String.eqb f (fst (review_tool worlds today order read tables refs dir)) = dget String.eqb f (fst (review_tool worlds today order' read tables refs dir)).
Proof. exact tool_any_order. Qed.
Print Assumptions C90_any_order.
Example C90_any_order_ex : (forall l : list string, Permutation (rev l) l) /\ readable w_files ["in/x.xml"; "in/y.xml"] /\ readable w_files ["ref/z.xml"; "in/x.xml"] /\
  completing w_worlds w_files ["in/x.xml"; "in/y.xml"] ["ref/z.xml"; "in/x.xml"] /\ separate ["in/x.xml"; "in/y.xml"] ["ref/z.xml"; "in/x.xml"].
Proof. exact (conj rev_order (conj (proj1 w_readable) (conj (proj2 w_readable) (conj (w_completing _ _) w_separate)))). Qed.

(** C90: files with different base names do not collide when those of one side have
    no underscore. *)
Theorem C90_names : forall tables refs, different_names tables -> different_names refs -> no_underscore tables \/ no_underscore refs -> separate tables refs.
Proof. exact names_apart. Qed.
Print Assumptions C90_names.
Example C90_names_ex : separate ["in/x.xml"; "in/y.xml"] ["ref/z.xml"; "in/x.xml"].
Proof. exact w_separate. Qed.

(** C90: whatever happens, a file is as it was, or holds the review of a pair given
    under its name, or is empty and the tool failed. *)
Theorem C90_sound : forall worlds today read order tables refs dir dir' x, (forall l, Permutation (order l) l) ->
  review_tool worlds today order read tables refs dir = (dir', x) -> forall f,
  dget String.eqb f dir' = dget String.eqb f dir \/
  (exists t r c, In t tables /\ In r refs /\ report_of t r f /\ dget String.eqb f dir' = Some c /\ holds_review worlds today read t r c) \/
  (exists e, x = Raise e /\ dget String.eqb f dir' = Some Empty).
Proof. exact tool_sound. Qed.
Print Assumptions C90_sound.
Example C90_sound_ex : w_review (fun l => l) ["bad.xml"; "in/x.xml"] ["ref/z.xml"] [] = ([("None_z.xml.json", Empty)], Raise TypeError).
Proof. exact w_bad. Qed.

(** C90: when it fails at most one file is left empty. *)
Theorem C90_stops : forall worlds today read order tables refs dir dir' e, (forall l, Permutation (order l) l) ->
  review_tool worlds today order read tables refs dir = (dir', Raise e) ->
  dir' = dir \/ exists f, dget String.eqb f dir' = Some Empty /\ forall f', f' <> f -> dget String.eqb f' dir' = dget String.eqb f' dir \/
    exists t r c, In t tables /\ In r refs /\ report_of t r f' /\ dget String.eqb f' dir' = Some c /\ holds_review worlds today read t r c.
Proof. exact tool_stops. Qed.
Print Assumptions C90_stops.
Example C90_stops_ex : w_review (fun l => l) ["bad.xml"; "in/x.xml"] ["ref/z.xml"] [] = ([("None_z.xml.json", Empty)], Raise TypeError).
Proof. exact w_bad. Qed.

(** C90: a file that cannot be read at all stops the tool before anything is written. *)
Theorem C90_unread : forall worlds today read order tables refs dir p e, (forall l, Permutation (order l) l) -> In p (refs ++ tables) -> read p = Raise e ->
  exists e', review_tool worlds today order read tables refs dir = (dir, Raise e').
Proof. exact tool_unread. Qed.
Print Assumptions C90_unread.
Example C90_unread_ex : w_files "gone.xml" = Raise ValueError /\ w_review (fun l => l) ["in/x.xml"; "gone.xml"] ["ref/z.xml"] before = (before, Raise ValueError).
Proof. exact w_broken. Qed.

(** C90: the review without a reference completes, and says which entries are
    valid and whether there are several sets of digits. *)
Theorem C90_core_completes : forall worlds today idna t, it_db (rt_table t) <> None -> lgr_reachable (it_lgr (rt_table t)) -> without_sequences (rt_table t) ->
  (forall l, exists b, wo_test (worlds (rt_table t)) l = Ok b) -> exists c, core_review worlds today idna t = Ok c.
Proof. exact core_completes. Qed.
Print Assumptions C90_core_completes.
Example C90_core_completes_ex : it_db (rt_table w_read) <> None /\ lgr_reachable (it_lgr (rt_table w_read)) /\ without_sequences (rt_table w_read) /\
  (forall l, exists b, wo_test (w_worlds (rt_table w_read)) l = Ok b).
Proof. exact w_core_hypotheses. Qed.
Theorem C90_core : forall worlds today idna t c report valid invalid, lgr_reachable (it_lgr (rt_table t)) -> (forall x, ~ In 32%N (idna x)) ->
  core_review worlds today idna t = Ok c -> co_repertoire c = (report, valid, invalid) ->
  co_header c = mkHeader today (rt_name t, rt_version t) None /\
  (NoDup (map fst report) /\ (forall a, In a (map fst report) <-> exists ch, lookup (it_rep (rt_table t)) a = Some ch) /\
   (valid + invalid = length report)%nat /\ exists l, NoDup l /\ length l = valid /\ forall a, In a l <-> all_valid_entry (it_rep (rt_table t)) idna a) /\
  (co_digits c = true <-> over_ten (it_rep (rt_table t)) (wo_digit (worlds (rt_table t)))).
Proof. exact core_says. Qed.
Print Assumptions C90_core.
Example C90_core_ex : (forall x, ~ In 32%N (w_idna x)) /\ core_shown (core_review w_worlds w_today w_idna w_read) = Some (mkHeader w_today ("x.xml", Some (txt "1")) None, 5, 2, 3, false)%nat.
Proof. exact (conj w_idna_words w_core_review). Qed.

(** C90, refuted: with different base names on both sides two pairs can still share
    a file. *)
Theorem C90_clash_refuted : exists tables refs dir' t r f, readable w_files tables /\ readable w_files refs /\ different_names tables /\ different_names refs /\
  w_review (fun l => l) tables refs [] = (dir', Ok []) /\ In t tables /\ In r refs /\ report_of t r f /\
  forall c, dget String.eqb f dir' = Some c -> ~ holds_review w_worlds w_today w_files t r c.
Proof. exact clash_refuted. Qed.
Print Assumptions C90_clash_refuted.
(** C90, refuted: so can tables of the same name in different directories. *)
Theorem C90_same_name_refuted : exists tables refs dir' t r f, readable w_files tables /\ readable w_files refs /\ no_underscore tables /\ no_underscore refs /\
  w_review (fun l => l) tables refs [] = (dir', Ok []) /\ In t tables /\ In r refs /\ report_of t r f /\
  forall c, dget String.eqb f dir' = Some c -> ~ holds_review w_worlds w_today w_files t r c.
Proof. exact same_refuted. Qed.
Print Assumptions C90_same_name_refuted.
(** C90, refuted: a file the schema refuses is announced as skipped; it never is. *)
Theorem C90_refused : forall worlds today read order tables refs dir p, (forall l, Permutation (order l) l) -> tables <> [] -> refs <> [] -> In p (refs ++ tables) -> read p = Ok None ->
  exists dir' e, review_tool worlds today order read tables refs dir = (dir', Raise e).
Proof. exact tool_refused. Qed.
Print Assumptions C90_refused.
Theorem C90_skipped_refuted : exists p t r, w_files p = Ok None /\ readable w_files [t; r] /\ w_review (fun l => l) [p; t] [r] [] = ([("None_z.xml.json", Empty)], Raise TypeError).
Proof. exact skipped_refuted. Qed.
Print Assumptions C90_skipped_refuted.
