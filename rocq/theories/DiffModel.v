(** Model of lgr/tools/compare/diff.py.  No proofs here.

    The output is modelled as the list of things it says rather than as text:
    each call of compare_things gives one [shown] or [shown_set], and a part of
    the text is empty exactly when nothing in it is said.  [order] is the order
    in which Python enumerates sets. *)
From Verif Require Import Base CharModel UtilsModel RefModel ActionModel LgrModel MetaModel ValidateModel CompareModel.
Open Scope string_scope.
Open Scope list_scope.

(** diff.py:44-76 compare_things, not on sets: nothing, both values, or the
    common value. *)
Inductive shown (A : Type) : Type :=
| Nothing
| Differ (first second : A)
| Alike (value : A).
Arguments Nothing {A}. Arguments Differ {A}. Arguments Alike {A}.
(** The same on sets: diff.py:12-41 compare_sets is called without show_same,
    so that common values are not shown. *)
Inductive shown_set (A : Type) : Type :=
| SNothing
| SDiffer (only_first only_second : list A)
| SAlike (values : list A).
Arguments SNothing {A}. Arguments SDiffer {A}. Arguments SAlike {A}.

(** diff.py:58-76. *)
Definition compare_values {A} (eqb : A -> A -> bool) (show_same : bool) (a b : A) : shown A :=
  if negb (eqb a b) then Differ a b else if show_same then Alike a else Nothing.
(** Text is empty. *)
Definition quiet {A} (s : shown A) : bool := match s with Nothing => true | _ => false end.
Definition quiet_set {A} (s : shown_set A) : bool := match s with SNothing => true | _ => false end.

(** compare/utils.py:10-12 VariantProperties. *)
Record vprops : Type := mkVp {
  vp_cp : cps; vp_type : option string; vp_when : option string; vp_not_when : option string; vp_comment : option string }.
Definition vprops_eqb (a b : vprops) : bool :=
  if cps_eqb (vp_cp a) (vp_cp b) then
  if ostring_eqb (vp_type a) (vp_type b) then
  if ostring_eqb (vp_when a) (vp_when b) then
  if ostring_eqb (vp_not_when a) (vp_not_when b) then ostring_eqb (vp_comment a) (vp_comment b)
  else false else false else false else false.
Definition props_of (v : variant) : vprops := mkVp (v_cp v) (v_type v) (v_when v) (v_not_when v) (v_comment v).
Fixpoint names_eqb (a b : list string) : bool :=
  match a, b with
  | [], [] => true
  | x :: a', y :: b' => if String.eqb x y then names_eqb a' b' else false
  | _, _ => false
  end.

(** What each part of the output says. *)
Record version_diff : Type := mkVd {
  vd_none1 : bool; vd_none2 : bool; vd_value : shown cps; vd_comment : shown (option cps) }.
Record description_diff : Type := mkDd {
  dd_none1 : bool; dd_none2 : bool; dd_type : shown (option cps); dd_value : shown cps }.
Record metadata_diff : Type := mkMd {
  mf_version : option version_diff; mf_description : option description_diff;
  mf_scopes : shown_set scope; mf_languages : shown_set cps;
  mf_date : shown (option cps); mf_start : shown (option cps); mf_end : shown (option cps); mf_unicode : shown (option cps) }.
Record char_diff : Type := mkCd {
  cd_comment : shown (option string); cd_tags : shown (list string); cd_variants : shown_set vprops }.
Record lgr_diff : Type := mkLd {
  ld_metadata : option metadata_diff;
  ld_references : shown_set string;
  ld_repertoire : shown_set cps;
  ld_common : list (cps * char_diff);
  ld_identical : option nat;
  ld_actions : shown_set string; ld_rules : shown_set string; ld_classes : shown_set string }.

Definition is_none {A} (o : option A) : bool := match o with None => true | Some _ => false end.

Section Diff.
  Variable order : forall A : Type, list A -> list A.

  (** diff.py:12-41, 58-76 on sets, given as lists of their elements. *)
  Definition compare_sets {A} (eqb : A -> A -> bool) (show_same : bool) (a b : list A) : shown_set A :=
    if negb (if forallb (fun x => memb eqb x b) a then forallb (fun x => memb eqb x a) b else false)
    then SDiffer (order _ (set_diff eqb a b)) (order _ (set_diff eqb b a))
    else if show_same then SAlike (order _ (dedup eqb a)) else SNothing.

  (** diff.py:79-104 diff_version. *)
  Definition diff_version (show_same : bool) (first second : option version) : option version_diff :=
    let d := match first, second with
             | Some a, Some b => mkVd false false (compare_values cps_eqb show_same (ver_value a) (ver_value b))
                                      (compare_values otext_eqb show_same (ver_comment a) (ver_comment b))
             | _, _ => mkVd (is_none first) (is_none second) Nothing Nothing
             end in
    if vd_none1 d then Some d else if vd_none2 d then Some d
    else if negb (quiet (vd_value d)) then Some d else if negb (quiet (vd_comment d)) then Some d else None.

  (** diff.py:107-133 diff_description. *)
  Definition diff_description (show_same : bool) (first second : option description) : option description_diff :=
    let d := match first, second with
             | Some a, Some b => mkDd false false (compare_values otext_eqb show_same (desc_type a) (desc_type b))
                                      (compare_values cps_eqb show_same (desc_value a) (desc_value b))
             | _, _ => mkDd (is_none first) (is_none second) Nothing Nothing
             end in
    if dd_none1 d then Some d else if dd_none2 d then Some d
    else if negb (quiet (dd_type d)) then Some d else if negb (quiet (dd_value d)) then Some d else None.

  (** diff.py:136-183 diff_metadata; the heading comes when something is said. *)
  Definition quiet_metadata (d : metadata_diff) : bool :=
    if is_none (mf_version d) then if is_none (mf_description d) then
    if quiet_set (mf_scopes d) then if quiet_set (mf_languages d) then
    if quiet (mf_date d) then if quiet (mf_start d) then if quiet (mf_end d) then quiet (mf_unicode d)
    else false else false else false else false else false else false else false.
  Definition diff_metadata (show_same : bool) (first second : metadata) : option metadata_diff :=
    let d := mkMd (diff_version show_same (md_version first) (md_version second))
                  (diff_description show_same (md_description first) (md_description second))
                  (compare_sets scope_eqb show_same (md_scopes first) (md_scopes second))
                  (compare_sets cps_eqb show_same (md_languages first) (md_languages second))
                  (compare_values otext_eqb show_same (md_date first) (md_date second))
                  (compare_values otext_eqb show_same (md_start first) (md_start second))
                  (compare_values otext_eqb show_same (md_end first) (md_end second))
                  (compare_values otext_eqb show_same (md_unicode first) (md_unicode second)) in
    if quiet_metadata d then None else Some d.

  (** diff.py:186-199 diff_reference_manager. *)
  Definition diff_references (show_same : bool) (first second : refman) : shown_set string :=
    compare_sets String.eqb show_same (ref_values first) (ref_values second).

  (** diff.py:202-230 diff_char. *)
  Definition same_set {A} (eqb : A -> A -> bool) (a b : list A) : bool :=
    if forallb (fun x => memb eqb x b) a then forallb (fun x => memb eqb x a) b else false.
  Definition diff_char (show_same : bool) (first second : char) : char_diff :=
    let v1 := map props_of (get_variants first) in
    let v2 := map props_of (get_variants second) in
    if (if show_same then false else
        if ostring_eqb (ch_comment first) (ch_comment second) then
        if names_eqb (ch_tags first) (ch_tags second) then same_set vprops_eqb v1 v2 else false else false)
    then mkCd Nothing Nothing SNothing
    else mkCd (compare_values ostring_eqb show_same (ch_comment first) (ch_comment second))
              (compare_values names_eqb show_same (ch_tags first) (ch_tags second))
              (compare_sets vprops_eqb show_same v1 v2).
  Definition quiet_char (d : char_diff) : bool :=
    if quiet (cd_comment d) then if quiet (cd_tags d) then quiet_set (cd_variants d) else false else false.

  (** diff.py:233-271 diff_actions, diff_rules, diff_classes. *)
  Definition diff_actions (show_same : bool) (d1 d2 : doc) : shown_set string :=
    compare_sets String.eqb show_same (map a_disp (doc_actions d1)) (map a_disp (doc_actions d2)).
  Definition diff_rules (show_same : bool) (d1 d2 : doc) : shown_set string :=
    compare_sets String.eqb show_same (doc_rules d1) (doc_rules d2).
  Definition diff_classes (show_same : bool) (d1 d2 : doc) : shown_set string :=
    compare_sets String.eqb show_same (doc_classes d1) (doc_classes d2).

  (** diff.py:315-330: the loop over the common code points. *)
  Fixpoint diff_common (show_same : bool) (g1 g2 : lgr) (l : list cps) : res (list (cps * char_diff) * nat) :=
    match l with
    | [] => Ok ([], 0%nat)
    | c :: l' =>
        bind (lgr_get_char g1 c) (fun a => bind (lgr_get_char g2 c) (fun b =>
        let d := diff_char show_same a b in
        bind (diff_common show_same g1 g2 l') (fun rest =>
        if (if show_same then false else quiet_char d) then Ok (fst rest, S (snd rest))
        else Ok ((c, d) :: fst rest, snd rest))))
    end.

  (** diff.py:274-341 diff_lgrs, after the ranges are expanded; the last three
      comparisons are made without show_same. *)
  Definition diff_body (show_same : bool) (d1 d2 : doc) : res lgr_diff :=
    let g1 := doc_lgr d1 in
    let g2 := doc_lgr d2 in
    let first_cps := map ch_cp (rep_iter (lg_rep g1)) in
    let second_cps := map ch_cp (rep_iter (lg_rep g2)) in
    bind (diff_common show_same g1 g2 (order _ (set_inter cps_eqb first_cps second_cps))) (fun common =>
    Ok (mkLd (diff_metadata show_same (doc_meta d1) (doc_meta d2))
             (diff_references show_same (lg_refs g1) (lg_refs g2))
             (compare_sets cps_eqb show_same first_cps second_cps)
             (fst common)
             (if show_same then None else if Nat.ltb 0 (snd common) then Some (snd common) else None)
             (diff_actions false d1 d2) (diff_rules false d1 d2) (diff_classes false d1 d2))).
  Definition set_doc (d : doc) (g : lgr) : doc :=
    mkDoc (doc_name d) g (doc_meta d) (doc_actions d) (doc_actions_xml d) (doc_rules d) (doc_rules_xml d) (doc_classes d) (doc_classes_xml d).
  Definition diff_lgrs (show_same : bool) (d1 d2 : doc) : doc * doc * res lgr_diff :=
    match lgr_expand_ranges (doc_lgr d1) with
    | (g1, Raise e) => (set_doc d1 g1, d2, Raise e)
    | (g1, Ok _) =>
        match lgr_expand_ranges (doc_lgr d2) with
        | (g2, Raise e) => (set_doc d1 g1, set_doc d2 g2, Raise e)
        | (g2, Ok _) => (set_doc d1 g1, set_doc d2 g2, diff_body show_same (set_doc d1 g1) (set_doc d2 g2))
        end
    end.

  (** ** Sets of LGRs *)
  (** diff.py:359-372 get_scripts: the LGRs of a set by their first language,
      and the languages met again.  An LGR without language is skipped. *)
  Fixpoint get_scripts (l : list doc) (d : dict cps (list doc)) : dict cps (list doc) * list cps :=
    match l with
    | [] => (d, [])
    | x :: l' =>
        match md_languages (doc_meta x) with
        | [] => get_scripts l' d
        | s :: _ =>
            let old := match dget cps_eqb s d with Some o => o | None => [] end in
            let '(d', again) := get_scripts l' (dset cps_eqb s (old ++ [x]) d) in
            (d', if dmem cps_eqb s d then s :: again else again)
        end
    end.
  (** diff.py:398-408: all pairs for a script; the comparison expands the LGRs
      in place, the expanded ones are met by the next comparisons. *)
  Fixpoint pairs_row (show_same : bool) (x : doc) (l : list doc) : doc * list doc * res (list (string * string * lgr_diff)) :=
    match l with
    | [] => (x, [], Ok [])
    | y :: l' =>
        match diff_lgrs show_same x y with
        | (x1, y1, Raise e) => (x1, y1 :: l', Raise e)
        | (x1, y1, Ok d) =>
            match pairs_row show_same x1 l' with
            | (x2, l2, Raise e) => (x2, y1 :: l2, Raise e)
            | (x2, l2, Ok ds) => (x2, y1 :: l2, Ok ((doc_name x, doc_name y, d) :: ds))
            end
        end
    end.
  Fixpoint pairs_table (show_same : bool) (l1 l2 : list doc) : res (list (string * string * lgr_diff)) :=
    match l1 with
    | [] => Ok []
    | x :: l1' =>
        match pairs_row show_same x l2 with
        | (_, l2', Raise e) => Raise e
        | (_, l2', Ok ds) => bind (pairs_table show_same l1' l2') (fun rest => Ok (ds ++ rest))
        end
    end.
  Record set_diffs : Type := mkSd {
    sd_again1 : list cps; sd_again2 : list cps;
    sd_only1 : list (cps * list string); sd_only2 : list (cps * list string);
    sd_metadata : option metadata_diff;
    sd_scripts : list (cps * list (string * string * lgr_diff)) }.
  Definition named_scripts (d : dict cps (list doc)) (l : list cps) : list (cps * list string) :=
    map (fun s => (s, map doc_name (match dget cps_eqb s d with Some o => o | None => [] end))) l.
  (** diff.py:344-410 diff_lgr_sets; the metadata are compared without
      show_same. *)
  Definition diff_lgr_sets (show_same : bool) (m1 m2 : doc) (s1 s2 : list doc) : res set_diffs :=
    let '(d1, again1) := get_scripts s1 [] in
    let '(d2, again2) := get_scripts s2 [] in
    bind (mapM_res (fun s => bind (pairs_table show_same (match dget cps_eqb s d1 with Some o => o | None => [] end)
                                                  (match dget cps_eqb s d2 with Some o => o | None => [] end))
                             (fun ds => Ok (s, ds)))
            (order _ (set_inter cps_eqb (dkeys d1) (dkeys d2)))) (fun common =>
    Ok (mkSd again1 again2
             (named_scripts d1 (order _ (set_diff cps_eqb (dkeys d1) (dkeys d2))))
             (named_scripts d2 (order _ (set_diff cps_eqb (dkeys d2) (dkeys d1))))
             (diff_metadata false (doc_meta m1) (doc_meta m2)) common)).
End Diff.
