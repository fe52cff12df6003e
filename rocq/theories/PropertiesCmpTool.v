(** C88: the comparison tool, and what it prints read back. *)
From Verif Require Import Base CharModel RepSpec RefModel ActionModel LgrModel LgrSpec MetaModel MetaSpec CompareModel CompareSpec CompareWitness SerialModel SerialSpec SerialWitness
  CmpToolModel CmpToolSpec CmpToolProofs CmpToolFinal.
Open Scope string_scope.
Open Scope list_scope.

(** With two readable files, UNION prints an LGR whose metadata, code points and
    references any strict reader gets back; the same for INTERSECT.  Missing: the
    rules, the classes and the actions, which are printed as texts. *)
Theorem C88_union_partial : forall read_file schema merge_set diff diff_sets o today lang dig, dig 46%N = false -> permutes o -> full_date today ->
  forall f1 f2 d1 d2, (forall ok, schema = Some ok -> ok f1 = true) -> (forall ok, schema = Some ok -> ok f2 = true) ->
  read_file f1 = Ok (Some d1) -> read_file f2 = Ok (Some d2) -> presentable lang dig d1 -> presentable lang dig d2 ->
  forall generate n1 n2, exists d x,
    compare_tool read_file schema merge_set diff diff_sets o today Union generate [f1] [f2] n1 n2 =
      Ok (PrintedLgr x (doc_classes_xml d) (doc_rules_xml d) (doc_actions_xml d)) /\
    union_is o today d1 d2 d /\
    forall db allow, admits db allow (doc_lgr d1) -> admits db allow (doc_lgr d2) -> reads_as lang dig db allow x d.
Proof. exact tool_union. Qed.
Print Assumptions C88_union_partial.
Theorem C88_intersection_partial : forall read_file schema merge_set diff diff_sets o today lang dig, dig 46%N = false -> permutes o -> full_date today ->
  forall f1 f2 d1 d2, (forall ok, schema = Some ok -> ok f1 = true) -> (forall ok, schema = Some ok -> ok f2 = true) ->
  read_file f1 = Ok (Some d1) -> read_file f2 = Ok (Some d2) -> presentable lang dig d1 -> presentable lang dig d2 ->
  forall generate n1 n2, exists d x,
    compare_tool read_file schema merge_set diff diff_sets o today Intersect generate [f1] [f2] n1 n2 =
      Ok (PrintedLgr x (doc_classes_xml d) (doc_rules_xml d) (doc_actions_xml d)) /\
    intersection_is o today d1 d2 d /\
    forall db allow, admits db allow (doc_lgr d1) -> reads_as lang dig db allow x d.
Proof. exact tool_inter. Qed.
Print Assumptions C88_intersection_partial.
Example C88_files_met : ascii_digit 46%N = false /\ permutes backwards /\ full_date today /\ files "a.xml" = Ok (Some doc_a) /\ files "b.xml" = Ok (Some doc_b) /\
  presentable every_lang ascii_digit doc_a /\ presentable every_lang ascii_digit doc_b.
Proof.
  exact (conj eq_refl (conj backwards_permutes (conj today_full (conj eq_refl (conj eq_refl (conj doc_a_presentable doc_b_presentable)))))).
Qed.
Example C88_printed : exists x cl ru ac, sample_tool Union false ["a.xml"] ["b.xml"] None None = Ok (PrintedLgr x cl ru ac) /\ length (x_data x) = 9%nat /\ ac = ["a1"; "a2"; "a3"].
Proof. eexists. eexists. eexists. eexists. vm_compute. split; [reflexivity|]. split; reflexivity. Qed.

(** What was printed can be combined again: always after an intersection, after a
    union when no action has two texts. *)
Theorem C88_intersection_again : forall lang dig o today d1 d2 d, permutes o -> full_date today -> presentable lang dig d1 -> presentable lang dig d2 ->
  intersection_is o today d1 d2 d -> presentable lang dig d.
Proof. exact inter_presentable. Qed.
Print Assumptions C88_intersection_again.
Theorem C88_union_again_partial : forall lang dig o today d1 d2 d, permutes o -> full_date today -> presentable lang dig d1 -> presentable lang dig d2 ->
  union_is o today d1 d2 d -> length (doc_actions d) = length (doc_actions_xml d) -> presentable lang dig d.
Proof. exact union_presentable. Qed.
Print Assumptions C88_union_again_partial.
Example C88_union_again_met : union_is backwards today doc_a doc_b u_ab /\ length (doc_actions u_ab) = length (doc_actions_xml u_ab) /\ intersection_is backwards today doc_a doc_b i_ab.
Proof. split; [exact u_ab_is|]. split; [vm_compute; reflexivity|exact i_ab_is]. Qed.
(** Otherwise the texts shift: an action of a later intersection gets the text of
    another action. *)
Theorem C88_union_again_refuted : exists o t d1 d2 d3 d, permutes o /\ full_date t /\ presentable every_lang ascii_digit d1 /\ presentable every_lang ascii_digit d2 /\
  union_is o t d1 d2 d3 /\ length (doc_actions d3) <> length (doc_actions_xml d3) /\ intersection_is o t d3 d2 d /\
  In (act "valid" None, "x3") (combine (doc_actions d2) (doc_actions_xml d2)) /\ In (act "valid" None, "x1 with a comment") (combine (doc_actions d) (doc_actions_xml d)).
Proof. exact chain_refuted. Qed.
Print Assumptions C88_union_again_refuted.

(** A file alone that has no LGR, or that the schema refuses, is named and nothing
    is printed. *)
Theorem C88_unreadable : forall read_file schema merge_set diff diff_sets o today a generate f1 f2 n1 n2,
  ((exists ok, schema = Some ok /\ ok f1 = false) \/ read_file f1 = Ok None -> (forall e, parse_file read_file schema f2 <> Raise e) ->
     compare_tool read_file schema merge_set diff diff_sets o today a generate [f1] [f2] n1 n2 =
       Ok (Said ["Error while parsing first LGR file."; "Please check compliance with RNG."])) /\
  (forall d1, (forall ok, schema = Some ok -> ok f1 = true) -> read_file f1 = Ok (Some d1) ->
     (exists ok, schema = Some ok /\ ok f2 = false) \/ read_file f2 = Ok None ->
     compare_tool read_file schema merge_set diff diff_sets o today a generate [f1] [f2] n1 n2 =
       Ok (Said ["Error while parsing second LGR file."; "Please check compliance with RNG."])).
Proof. exact tool_refuses. Qed.
Print Assumptions C88_unreadable.
Example C88_unreadable_sample : strict_tool Union false ["b.xml"] ["a.xml"] None None = Ok (Said ["Error while parsing first LGR file."; "Please check compliance with RNG."]) /\
  sample_tool Union false ["a.xml"] ["empty.xml"] None None = Ok (Said ["Error while parsing second LGR file."; "Please check compliance with RNG."]).
Proof. split; reflexivity. Qed.

(** An LGR is not compared with a set; sets have no union or intersection, and the
    request for a full dump makes no difference to them. *)
Theorem C88_one_and_set : forall read_file schema merge_set diff diff_sets o today a generate l1 l2 n1 n2,
  (length l1 = 1 /\ 1 < length l2 \/ 1 < length l1 /\ length l2 = 1)%nat ->
  compare_tool read_file schema merge_set diff diff_sets o today a generate l1 l2 n1 n2 = Ok (Said ["Cannot compare LGR with LGR sets"]).
Proof. exact tool_sets. Qed.
Print Assumptions C88_one_and_set.
Theorem C88_sets : forall read_file schema merge_set diff diff_sets o today generate l1 l2 n1 n2, (1 < length l1 /\ 1 < length l2)%nat ->
  (forall a, a <> Diff -> compare_tool read_file schema merge_set diff diff_sets o today a generate l1 l2 n1 n2 =
     Ok (Said ["Cannot perform intersection or union with LGR sets"])) /\
  compare_tool read_file schema merge_set diff diff_sets o today Diff generate l1 l2 n1 n2 =
    compare_tool read_file schema merge_set diff diff_sets o today Diff (negb generate) l1 l2 n1 n2.
Proof. exact tool_sets_deed. Qed.
Print Assumptions C88_sets.
(** The members are read in the order given, and the comparison of the merged
    LGRs and of their members is printed. *)
Theorem C88_sets_compared : forall read_file schema merge_set diff diff_sets o today generate l1 l2 n1 n2 ds1 ds2 m1 m2 t, (1 < length l1 /\ 1 < length l2)%nat ->
  Forall2 (fun f d => read_file f = Ok (Some d)) l1 ds1 -> Forall2 (fun f d => read_file f = Ok (Some d)) l2 ds2 ->
  merge_set ds1 (set_name n1) = Ok m1 -> merge_set ds2 (set_name n2) = Ok m2 -> diff_sets m1 m2 ds1 ds2 true = Ok t ->
  compare_tool read_file schema merge_set diff diff_sets o today Diff generate l1 l2 n1 n2 = Ok (PrintedText t).
Proof. exact tool_diff_sets. Qed.
Print Assumptions C88_sets_compared.
Example C88_sets_sample : sample_tool Diff false ["a.xml"; "b.xml"] ["b.xml"; "a.xml"] None (Some "") = Ok (PrintedText "all") /\
  sample_tool Union false ["a.xml"; "b.xml"] ["b.xml"; "a.xml"] None None = Ok (Said ["Cannot perform intersection or union with LGR sets"]) /\
  sample_tool Union false ["a.xml"] ["b.xml"; "a.xml"] None None = Ok (Said ["Cannot compare LGR with LGR sets"]).
Proof. repeat split; reflexivity. Qed.

(** A member of a set without LGR is not named: the tool fails. *)
Theorem C88_member_refuted : exists read merge diff sets o t l1 l2, (1 < length l1)%nat /\ (1 < length l2)%nat /\
  (forall f, In f (l1 ++ l2) -> exists r, read f = Ok r) /\
  compare_tool read None merge diff sets o t Diff false l1 l2 None None = Raise TypeError.
Proof. exact member_refuted. Qed.
Print Assumptions C88_member_refuted.
Theorem C88_member_fails : forall read_file schema merge_set diff diff_sets o today generate l1 l2 n1 n2 a f b, (1 < length l1 /\ 1 < length l2)%nat ->
  l1 = a ++ f :: b -> (forall g, In g a -> exists d, read_file g = Ok (Some d)) -> read_file f = Ok None ->
  compare_tool read_file schema merge_set diff diff_sets o today Diff generate l1 l2 n1 n2 = Raise TypeError.
Proof. exact tool_member_missing. Qed.
Print Assumptions C88_member_fails.
(** A file the schema refuses is refused alone and taken as a member of a set. *)
Theorem C88_schema_refuted : exists read ok merge diff sets o t f, ok f = false /\
  compare_tool read (Some ok) merge diff sets o t Diff false [f] [f] None None = Ok (Said ["Error while parsing first LGR file."; "Please check compliance with RNG."]) /\
  compare_tool read (Some ok) merge diff sets o t Diff false [f; f] [f; f] None None = Ok (PrintedText "all").
Proof. exact schema_refuted. Qed.
Print Assumptions C88_schema_refuted.
