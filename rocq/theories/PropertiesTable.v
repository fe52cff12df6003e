(** Theorems about reading text tables: one code point per line (C60), RFC 4290
    (C61), RFC 3743 (C62), and the choice of the format (C63).  Statements only.
    [enc] is the encoding of the text of references, any function. *)
From Verif Require Import Base CharModel RepSpec RefModel LgrModel LgrSpec UtilsModel AnnotateModel AnnotateSpec
  TableModel TableSpec TableProofs TableDoc TableEnding TableChoice TableWitness.
Open Scope string_scope.
Open Scope list_scope.

(** C60: reading never fails; the LGR has exactly the code points or sequences
    that the lines mention, with nothing else on them. *)
Theorem C60_code_points_of_lines : forall allow lines, exists g,
  parse_line_doc allow lines = (g, Done) /\ lgr_reachable g /\
  (forall c, lookup (lg_rep g) c <> None <->
             c <> [] /\ exists line t, In line lines /\ states line t /\ mentions t c) /\
  (forall c ch, lookup (lg_rep g) c = Some ch ->
     ch_comment ch = None /\ ch_refs ch = [] /\ ch_tags ch = [] /\ ch_when ch = None /\ ch_not_when ch = None /\
     is_range ch = false /\ get_variants ch = []) /\
  rm_refs (lg_refs g) = [].
Proof. exact line_list. Qed.
Print Assumptions C60_code_points_of_lines.
Example C60_nontrivial : let g := fst (parse_line_doc true line_sample) in
  seen_at g [97] = Some ([], []) /\ seen_at g [98; 223] = Some ([], []) /\ seen_at g [98] = None.
Proof. vm_compute. auto. Qed.
(** A comment at the end of a line is not left out. *)
Theorem C60_comment_refuted : exists lines g line t,
  parse_line_doc true lines = (g, Done) /\ In line lines /\ states line t /\
  (exists u, uncommented t u /\ mentions u [97]) /\ lookup (lg_rep g) [97] = None /\ lookup (lg_rep g) [97; 98] <> None.
Proof. exact (ex_intro _ line_comment line_comment_mixed). Qed.
Print Assumptions C60_comment_refuted.

(** C61: partial, for files in which a row whose character cannot be read has no
    readable variant.  The LGR has exactly the characters of the rows, each with
    exactly the variants of its rows, without type. *)
Theorem C61_rows_partial : forall force allow lines,
  (forall char vars, listed_4290 lines char vars -> readable_row char vars) ->
  exists g, parse_4290 force allow lines = (g, Done) /\ lgr_reachable g /\
  (forall c, lookup (lg_rep g) c <> None <-> exists char vars, listed_4290 lines char vars /\ dashed char c) /\
  (forall c ch u, lookup (lg_rep g) c = Some ch -> In u (get_variants ch) <->
     u = mkVariant (v_cp u) None None None None [] /\
     exists char vars var, listed_4290 lines char vars /\ dashed char c /\ In var vars /\ dashed var (v_cp u)).
Proof. exact table_4290. Qed.
Print Assumptions C61_rows_partial.
Example C61_nontrivial :
  (forall char vars, listed_4290 sample_4290 char vars -> readable_row char vars) /\
  let g := fst (parse_4290 false true sample_4290) in
  seen_at g [97] = Some ([([98], None); ([99; 100], None); ([103], None)], []) /\ seen_at g [101; 102] = Some ([], []).
Proof. exact (conj (readableb_sound sample_4290 eq_refl) (conj eq_refl eq_refl)). Qed.
(** Otherwise its variants are given to the character of an earlier row... *)
Theorem C61_row_before_refuted : exists lines g ch u, parse_4290 true true lines = (g, Done) /\
  lookup (lg_rep g) [97] = Some ch /\ In u (get_variants ch) /\ v_cp u = [99] /\
  ~ exists char vars var, listed_4290 lines char vars /\ dashed char [97] /\ In var vars /\ dashed var [99].
Proof. exact (ex_intro _ misplaced_4290 misplaced). Qed.
Print Assumptions C61_row_before_refuted.
(** ... or, when there is none, reading ends on an UnboundLocalError. *)
Theorem C61_first_row_refuted : exists lines, snd (parse_4290 true true lines) = Unbound.
Proof. exact (ex_intro _ _ crash_4290). Qed.
Print Assumptions C61_first_row_refuted.
(** A variant after a blank is lost, without any error. *)
Theorem C61_blank_refuted : exists with_blank without,
  with_blank = txt "U+0061| U+0062" /\ without = txt "U+0061|U+0062" /\
  snd (parse_4290 true true [with_blank]) = Done /\
  seen_at (fst (parse_4290 true true [with_blank])) [97] = Some ([], []) /\
  seen_at (fst (parse_4290 true true [without])) [97] = Some ([([98], None)], []).
Proof. exact (ex_intro _ _ (ex_intro _ _ (conj eq_refl (conj eq_refl (conj eq_refl blank_4290))))). Qed.
Print Assumptions C61_blank_refuted.

(** Whatever the file: it asks for something definite, and the LGR holds exactly
    that.  Reading ends well, or on an UnboundLocalError. *)
Theorem C61_any_file : forall lines, (exists evs done, asks_4290 None lines evs done) /\
  forall force allow evs done, asks_4290 None lines evs done ->
  exists g, parse_4290 force allow lines = (g, if done then Done else Unbound) /\ lgr_reachable g /\ holds evs g.
Proof. exact any_4290. Qed.
Print Assumptions C61_any_file.
Example C61_any_file_nontrivial : asks_4290 None misplaced_4290 [ECp [97] []; EVar [97] [99] None []] true.
Proof. exact asks_misplaced. Qed.
(** The latter only happens before anything was read. *)
Theorem C61_ending : forall force allow lines, snd (parse_4290 force allow lines) = Done \/
  (snd (parse_4290 force allow lines) = Unbound /\ forall c, lookup (lg_rep (fst (parse_4290 force allow lines))) c = None).
Proof. exact unbound_4290. Qed.
Print Assumptions C61_ending.
(** More lines never take anything away. *)
Theorem C61_more_lines : forall force allow lines more,
  extends (fst (parse_4290 force allow lines)) (fst (parse_4290 force allow (lines ++ more))).
Proof. exact prefix_4290. Qed.
Print Assumptions C61_more_lines.
Example C61_more_lines_nontrivial :
  seen_at (fst (parse_4290 false true (firstn 2 sample_4290))) [97] = Some ([([98], None); ([99; 100], None)], []) /\
  seen_at (fst (parse_4290 false true sample_4290)) [97] = Some ([([98], None); ([99; 100], None); ([103], None)], []).
Proof. vm_compute. auto. Qed.

(** C62: partial, for well-formed files.  The LGR holds exactly what is taken
    into account of what the rows and reference lines ask for (the first mention
    of each item counts), and the metadata are those of the last version line. *)
Theorem C62_table_partial : forall enc force allow lines evs vers, file_3743 enc lines evs vers ->
  exists st l, parse_3743 enc force allow lines = (st, Done) /\ lgr_reachable (st_lgr st) /\
    heeded force evs l /\ holds l (st_lgr st) /\
    st_meta st = match rev vers with [] => mkTm None None | (d, date, cm) :: _ => mkTm (Some (d, cm)) (Some date) end.
Proof. exact table_3743. Qed.
Print Assumptions C62_table_partial.
(** With force everything is. *)
Theorem C62_table_force_partial : forall enc allow lines evs vers, file_3743 enc lines evs vers ->
  exists st, parse_3743 enc true allow lines = (st, Done) /\ lgr_reachable (st_lgr st) /\ holds evs (st_lgr st) /\
    st_meta st = match rev vers with [] => mkTm None None | (d, date, cm) :: _ => mkTm (Some (d, cm)) (Some date) end.
Proof. exact table_3743_force. Qed.
Print Assumptions C62_table_force_partial.
Example C62_nontrivial : file_3743 plain sample_3743 sample_events [(49, txt "20050331", None)] /\
  let g := st_lgr (fst (parse_3743 plain true true sample_3743)) in
  seen_at g [19968] = Some ([([19969], Some "activated"); ([19970], None); ([19971; 19972], None)], ["1"]) /\
  map fst (rm_refs (lg_refs g)) = ["1"].
Proof. exact (conj sample_file (conj eq_refl eq_refl)). Qed.
(** Whatever the file: reading ends well, or on an UnboundLocalError before any
    code point was read.  Entries have neither comments, tags nor context rules,
    cite declared references only, and the types of variants are as documented. *)
Theorem C62_any_file : forall enc force allow lines, exists st o, parse_3743 enc force allow lines = (st, o) /\
  lgr_reachable (st_lgr st) /\
  (o = Done \/ (o = Unbound /\ forall c, lookup (lg_rep (st_lgr st)) c = None)) /\
  (forall c ch, lookup (lg_rep (st_lgr st)) c = Some ch ->
     is_range ch = false /\ ch_comment ch = None /\ ch_tags ch = [] /\ ch_when ch = None /\ ch_not_when ch = None /\
     (forall r, In r (ch_refs ch) -> dget String.eqb r (rm_refs (lg_refs (st_lgr st))) <> None) /\
     forall u, In u (get_variants ch) -> v_comment u = None /\ v_when u = None /\ v_not_when u = None /\
       (v_type u = None \/ v_type u = Some "activated") /\
       (forall r, In r (v_refs u) -> dget String.eqb r (rm_refs (lg_refs (st_lgr st))) <> None)).
Proof. exact any_3743. Qed.
Print Assumptions C62_any_file.
(** More lines never take anything away. *)
Theorem C62_more_lines : forall enc force allow lines more,
  extends (st_lgr (fst (parse_3743 enc force allow lines))) (st_lgr (fst (parse_3743 enc force allow (lines ++ more)))).
Proof. exact prefix_3743. Qed.
Print Assumptions C62_more_lines.
Example C62_strict_nontrivial : let lines := [txt "U+4E00(1);U+4E01"; txt "Reference 1 Unicode"; txt "U+4E02(1);U+4E03(1)"] in
  let g := st_lgr (fst (parse_3743 plain false true lines)) in
  seen_at g [19968] = None /\ seen_at g [19970] = Some ([([19971], Some "activated")], ["1"]) /\
  seen_at (st_lgr (fst (parse_3743 plain true true lines))) [19968] = Some ([([19969], Some "activated")], []).
Proof. vm_compute. auto. Qed.
(** A blank before ';': the variants of the row go to the character of an
    earlier row, or reading ends on an UnboundLocalError. *)
Theorem C62_blank_refuted : exists row tidy, row = txt "U+0062 ;U+0063;" /\ tidy = txt "U+0062;U+0063;" /\
  seen_at (st_lgr (fst (parse_3743 plain true true [txt "U+0061"; row]))) [97] = Some ([([99], Some "activated")], []) /\
  seen_at (st_lgr (fst (parse_3743 plain true true [txt "U+0061"; tidy]))) [97] = Some ([], []) /\
  snd (parse_3743 plain true true [row]) = Unbound.
Proof. exact (ex_intro _ _ (ex_intro _ _ (conj eq_refl (conj eq_refl misplaced_3743)))). Qed.
Print Assumptions C62_blank_refuted.
(** References with more than one digit are lost, and so are their citations. *)
Theorem C62_two_digits_refuted : exists line, line = txt "Reference 10 Unicode" /\
  rm_refs (lg_refs (st_lgr (fst (parse_3743 plain true true [line])))) = [] /\
  seen_at (st_lgr (fst (parse_3743 plain true true [line; txt "U+0061(10)"]))) [97] = Some ([], []).
Proof. exact (ex_intro _ _ (conj eq_refl (two_digits _ eq_refl))). Qed.
Print Assumptions C62_two_digits_refuted.
(** Code points that are not separated are read as one number. *)
Theorem C62_adjacent_refuted : exists line, line = txt "U+0061U+0062" /\
  seen_at (st_lgr (fst (parse_3743 plain true true [line]))) [6357090] = Some ([], []) /\
  seen_at (st_lgr (fst (parse_3743 plain true true [line]))) [97; 98] = None.
Proof. exact (ex_intro _ _ (conj eq_refl glued)). Qed.
Print Assumptions C62_adjacent_refuted.

(** C63: the first line that is specific of a format decides. *)
Theorem C63_first_specific_line : forall lines,
  match find_parser false lines with
  | F3743 => exists pre line, first_with (fun l => points_3743 l \/ points_4290 l) lines pre line /\ points_3743 line
  | F4290 => (exists pre line, first_with (fun l => points_3743 l \/ points_4290 l) lines pre line /\ points_4290 line) \/
             ((forall l, In l lines -> ~ points_3743 l /\ ~ points_4290 l) /\ exists l, In l lines /\ points_table l)
  | FXml => forall l, In l lines -> ~ points_3743 l /\ ~ points_4290 l /\ ~ points_table l
  end.
Proof. exact chosen. Qed.
Print Assumptions C63_first_specific_line.
Example C63_nontrivial : find_parser false sample_3743 = F3743 /\ find_parser false sample_4290 = F4290 /\
  find_parser false [txt "nothing"] = FXml /\ find_parser true sample_4290 = FXml.
Proof. vm_compute. auto. Qed.
(** An RFC 3743 table without any ';' is taken for an RFC 4290 one, and loses
    its references and sequences. *)
Theorem C63_no_separator_refuted : exists lines, find_parser false lines = F4290 /\
  seen_at (fst (parse_4290 true true lines)) [97] = Some ([], []) /\
  seen_at (fst (parse_4290 true true lines)) [97; 98] = None /\
  seen_at (st_lgr (fst (parse_3743 plain true true lines))) [97] = Some ([], ["1"]) /\
  seen_at (st_lgr (fst (parse_3743 plain true true lines))) [97; 98] = Some ([], []).
Proof. exact (ex_intro _ undecided undecided_read). Qed.
Print Assumptions C63_no_separator_refuted.
