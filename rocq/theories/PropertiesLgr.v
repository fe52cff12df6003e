(** Property theorems about the editing operations of an LGR (C02, C03, C08-C11,
    C13).  Statements only. *)
From Coq Require Import Sorting.Sorted Permutation.
From Verif Require Import Base BaseFacts CharModel RepSpec RepProofs RefModel LgrModel LgrSpec LgrProofs LgrReach LgrRange LgrInv LgrTags LgrRefs LgrMirror LgrFinal.
Open Scope string_scope.
Open Scope list_scope.

(** C02: a failed (raising, or returning false) single-entry edit leaves the
    whole LGR as it was. *)
Theorem C02_failed_edit_changes_nothing : forall g o g' x,
  match o with
  | LAddCp _ _ _ _ _ _ _ _ _ | LDelCp _ | LAddVariant _ _ _ _ _ _ _ _ _ _ | LDelVariant _ _ _ _
  | LAddReference _ _ _ => True
  | _ => False
  end ->
  lgr_step g o = (g', x) ->
  (exists e, x = LExn e) \/ x = LBool false ->
  g' = g.
Proof. exact failed_edit_changes_nothing. Qed.
Print Assumptions C02_failed_edit_changes_nothing.

Example C02_nontrivial :
  let g := fst (lgr_run (new_lgr None true) sample_ops) in
  snd (lgr_step g (LAddCp [1] None [] ["z"] None None None false true)) = LExn (CharAlreadyExists [1]) /\
  snd (lgr_step g (LAddVariant [9] [1] None None None None [] None false false)) = LExn (NotInLGR [9]) /\
  snd (lgr_step g (LDelVariant [1] [1] None None)) = LBool false.
Proof. vm_compute. auto. Qed.

(** C03: a range insertion that passes the checks inserts exactly the wanted
    code points; when it is stopped by an existing one, the smaller wanted ones
    have been inserted. *)
Theorem C03_lgr_add_range : forall g f l cm rf tg w nw vr ov fo, lgr_reachable g ->
  exists r, first_failing (add_range_checks g f l rf tg w nw vr ov fo) r /\
  let wanted y := f <= y <= l /\ to_insert g vr ov fo y in
  let entry y k := mkChar [y] k cm (kept_refs g rf) tg w nw [] in
  let '(g', x) := lgr_add_range g f l cm rf tg w nw vr ov fo in
  match r with
  | Some e => x = Raise e /\ g' = g
  | None =>
      (x = Ok tt /\ (forall y, wanted y -> ~ present g [y]) /\
       (forall y, wanted y -> exists k, lookup (lg_rep g') [y] = Some (entry y k)) /\
       (forall d, (forall y, d = [y] -> ~ wanted y) -> lookup (lg_rep g') d = lookup (lg_rep g) d))
      \/
      (exists z, x = Raise (CharAlreadyExists [z]) /\ wanted z /\ present g [z] /\
       (forall y, wanted y -> y < z -> ~ present g [y] /\ exists k, lookup (lg_rep g') [y] = Some (entry y k)) /\
       (forall d, (forall y, d = [y] -> ~ (wanted y /\ y < z)) -> lookup (lg_rep g') d = lookup (lg_rep g) d))
  end.
Proof. exact add_range_spec_reach. Qed.
Print Assumptions C03_lgr_add_range.

(** All or nothing, unless a validating repertoire is overridden or invalid
    code points are allowed. *)
Theorem C03_lgr_add_range_atomic_partial : forall g f l cm rf tg w nw vr ov fo e g', lgr_reachable g ->
  vr = None \/ (ov = false /\ fo = false) ->
  lg_raise g = true \/ lg_db g = None ->
  lgr_add_range g f l cm rf tg w nw vr ov fo = (g', Raise e) -> g' = g.
Proof. exact add_range_atomic_reach. Qed.
Print Assumptions C03_lgr_add_range_atomic_partial.

(** In those two cases it is not. *)
Theorem C03_lgr_add_range_atomic_refuted :
  exists db allow ops f l vr ov, let g := fst (lgr_run (new_lgr db allow) ops) in
    snd (lgr_add_range g f l None [] [] None None (Some vr) ov false) = Raise (CharAlreadyExists [l]) /\
    exists c, lookup (lg_rep g) c = None /\
      lookup (lg_rep (fst (lgr_add_range g f l None [] [] None None (Some vr) ov false))) c <> None.
Proof. exact add_range_not_atomic. Qed.
Print Assumptions C03_lgr_add_range_atomic_refuted.

Theorem C03_lgr_add_range_atomic_idna_refuted :
  exists db ops f l, let g := fst (lgr_run (new_lgr db true) ops) in
    snd (lgr_add_range g f l None [] [] None None None false false) = Raise (CharAlreadyExists [l]) /\
    exists c, lookup (lg_rep g) c = None /\
      lookup (lg_rep (fst (lgr_add_range g f l None [] [] None None None false false))) c <> None.
Proof. exact add_range_not_atomic_idna. Qed.
Print Assumptions C03_lgr_add_range_atomic_idna_refuted.

Example C03_lgr_nontrivial :
  let g := fst (lgr_run (new_lgr (Some (mkDb (fun x => negb (N.eqb x 23)) (fun _ => "Latn"))) false) [LAddCp [21] None [] [] None None None false false]) in
  lgr_reachable g /\
  let '(g', x) := lgr_add_range g 20 24 None [] ["t"] None None None false true in
  x = Ok tt /\ map (fun c => match lookup (lg_rep g') [c] with Some ch => ch_tags ch | None => ["absent"] end) [19; 20; 21; 22; 23; 24; 25]
    = [["absent"]; ["t"]; []; ["t"]; ["absent"]; ["t"]; ["absent"]].
Proof. cbv zeta. split; [do 3 eexists; reflexivity|]. vm_compute. auto. Qed.

(** C08: the first failing check, in the documented order, decides the exception
    and nothing changes; otherwise exactly one entry is added. *)
Theorem C08_add_cp_checks : forall g c cm rf tg w nw vr ov fo,
  exists r, first_failing (add_cp_checks g c rf tg w nw vr ov fo) r /\
  let '(g', x) := lgr_add_cp g c cm rf tg w nw vr ov fo in
  match r with
  | Some e => x = Raise e /\ g' = g
  | None =>
      x = Ok tt /\
      lookup (lg_rep g') c = Some (mkChar c (kind_of c) cm (kept_refs g rf) tg w nw []) /\
      (forall d, d <> c -> lookup (lg_rep g') d = lookup (lg_rep g) d) /\
      rep_ranges (lg_rep g') = rep_ranges (lg_rep g) /\
      lg_db g' = lg_db g /\ lg_raise g' = lg_raise g /\ lg_types g' = lg_types g /\ lg_refs g' = lg_refs g
  end.
Proof. exact add_cp_spec. Qed.
Print Assumptions C08_add_cp_checks.

(** What forcing cannot override. *)
Theorem C08_forced : forall g c rf tg w nw vr ov e,
  snd (lgr_add_cp g c None rf tg w nw vr ov true) = Raise e ->
  chk_empty c e \/ chk_idna g c e \/ chk_present g c e \/
  (exists v x, vr = Some v /\ In x c /\ lg_raise v = true /\ idna_invalid v x /\ e = CharInvalidIdnaProperty [x]).
Proof. exact add_cp_forced. Qed.
Print Assumptions C08_forced.

Example C08_nontrivial :
  let v := fst (lgr_run (new_lgr None true) [LAddCp [2] None [] [] None None None false false]) in
  let g := fst (lgr_run (new_lgr None true) sample_ops) in
  let out c rf tg w nw fo := snd (lgr_add_cp g c None rf tg w nw (Some v) false fo) in
  out [] [] [] None None true = Raise (LGRApiInvalidParameter "cp_or_sequence") /\
  out [2] [] [] (Some "r") (Some "s") false = Raise (CharInvalidContextRule [2]) /\
  out [2; 3] [] [] None None false = Raise (NotInRepertoire [2; 3]) /\
  out [2] ["7"] [] None None false = Raise (ReferenceNotDefined "7") /\
  out [2] ["0"; "0"] [] None None false = Raise (DuplicateReference [2]) /\
  out [2; 2] [] ["t"] None None false = Raise (LGRFormatException SEQUENCE_NO_TAG) /\
  out [2] [] ["t"; "t"] None None false = Raise (LGRFormatException DUPLICATE_TAG) /\
  out [2] ["0"] ["t"] (Some "r") None false = Ok tt /\
  out [3; 3] ["7"] ["t"; "t"] (Some "r") (Some "s") true = Ok tt.
Proof. vm_compute. repeat split. Qed.

(** C09: one status per code point of the range, in order, each being the right one. *)
Theorem C09_check_range : forall g f l vr,
  (l < f /\ check_range g f l vr = Raise (LGRApiInvalidParameter "first_cp")) \/
  (f <= l /\
   ((exists x, first_such (fun y => ~ idna_invalid g y /\ vr_raises vr y) (nrange f l) x /\
       check_range g f l vr = Raise (CharInvalidIdnaProperty [x])) \/
    (exists st, check_range g f l vr = Ok st /\ map fst st = nrange f l /\
       forall x s, In (x, s) st -> range_status g vr x s))).
Proof. exact check_range_spec. Qed.
Print Assumptions C09_check_range.

Theorem C09_status_unique : forall g vr x s s', range_status g vr x s -> range_status g vr x s' -> s = s'.
Proof. exact range_status_unique. Qed.
Print Assumptions C09_status_unique.

Example C09_nontrivial :
  let v := fst (lgr_run (new_lgr None true) [lrange 20 23 []]) in
  let g := fst (lgr_run (new_lgr (Some (mkDb (fun x => negb (N.eqb x 23)) (fun _ => "Latn"))) false) [LAddCp [21] None [] [] None None None false false]) in
  check_range g 21 24 (Some v) =
    Ok [(21, Some (CharAlreadyExists [21])); (22, None); (23, Some (CharInvalidIdnaProperty [23])); (24, Some (NotInRepertoire [24]))].
Proof. vm_compute. reflexivity. Qed.

(** C10: expanding every range keeps every entry, standing alone, in histories that
    keep ranges whole. *)
Theorem C10_expand_ranges_partial : forall g, tidy g ->
  let '(g', x) := lgr_expand_ranges g in
  x = Ok tt /\ rep_ranges (lg_rep g') = [] /\
  (forall c, lookup (lg_rep g') c = option_map single (lookup (lg_rep g) c)) /\
  lg_tags g' = lg_tags g /\ lg_refs g' = lg_refs g /\ lg_types g' = lg_types g.
Proof. exact expand_ranges_spec. Qed.
Print Assumptions C10_expand_ranges_partial.

(** The same for one range. *)
Theorem C10_expand_range_partial : forall g f l, tidy g ->
  let '(g', x) := lgr_expand_range g f l in
  (x = Ok tt /\ In (f, l) (rep_ranges (lg_rep g)) /\
   Permutation (rep_ranges (lg_rep g)) ((f, l) :: rep_ranges (lg_rep g')) /\
   (forall c, f <= c <= l -> lookup (lg_rep g') [c] = option_map single (lookup (lg_rep g) [c])) /\
   (forall d, (forall c, d = [c] -> ~ (f <= c <= l)) -> lookup (lg_rep g') d = lookup (lg_rep g) d)) \/
  ((exists e, x = Raise e) /\ g' = g).
Proof. exact expand_range_spec. Qed.
Print Assumptions C10_expand_range_partial.

(** After the deletion of one member, expansion raises and loses the others. *)
Theorem C10_expand_refuted : exists ops, let g := fst (lgr_run (new_lgr None true) ops) in
    snd (lgr_expand_ranges g) = Raise (NotInLGR [2]) /\
    exists c, lookup (lg_rep g) c <> None /\ lookup (lg_rep (fst (lgr_expand_ranges g))) c = None.
Proof. exact expand_not_preserving. Qed.
Print Assumptions C10_expand_refuted.

Example C10_nontrivial :
  let g := fst (lgr_run (new_lgr None true) [lrange 20 23 ["t"]; LAddCp [1; 2] None [] [] None None None false false; lrange 30 31 []]) in
  tidy g /\ let '(g', x) := lgr_expand_ranges g in
  x = Ok tt /\ rep_ranges (lg_rep g) = [(20, 23); (30, 31)] /\
  option_map ch_kind (lookup (lg_rep g') [21]) = Some KChar /\ option_map ch_tags (lookup (lg_rep g') [21]) = Some ["t"].
Proof. cbv zeta. split; [apply ranges_tidy; vm_compute; reflexivity|vm_compute; auto]. Qed.

(** C11: the class of a tag holds exactly the code points carrying the tag, in
    histories that do not delete tagged ranges nor force repeated or sequence tags. *)
Theorem C11_tag_classes_mirror_partial : forall g, tag_tidy g -> forall tag x, in_tag_class g tag x <-> carries g tag x.
Proof. exact tag_classes_mirror. Qed.
Print Assumptions C11_tag_classes_mirror_partial.

(** Deleting a tagged range leaves its members in the class. *)
Theorem C11_del_range_refuted : exists ops, let g := fst (lgr_run (new_lgr None true) ops) in
    in_tag_class g "t" 2 /\ ~ carries g "t" 2 /\ ~ present g [2].
Proof. exact del_range_leaves_class. Qed.
Print Assumptions C11_del_range_refuted.

Theorem C11_forced_sequence_tag_refuted : exists ops, let g := fst (lgr_run (new_lgr None true) ops) in
    carries g "t" 1 /\ ~ in_tag_class g "t" 1.
Proof. exact forced_sequence_tag_untags. Qed.
Print Assumptions C11_forced_sequence_tag_refuted.

Theorem C11_forced_duplicate_tag_refuted : exists ops, let g := fst (lgr_run (new_lgr None true) ops) in
    carries g "t" 1 /\ ~ in_tag_class g "t" 1.
Proof. exact forced_duplicate_tag_survives. Qed.
Print Assumptions C11_forced_duplicate_tag_refuted.

(** C13: unless a repeated reference was forced, every citation is of a defined
    reference ... *)
Theorem C13_citations_defined : forall g ref, ref_tidy g -> cited g ref -> defined_ref g ref.
Proof. exact citations_defined. Qed.
Print Assumptions C13_citations_defined.

(** ... deleting a reference removes every citation of it and nothing else; an
    undefined one raises and changes nothing. *)
Theorem C13_del_reference_partial : forall g ref, ref_tidy g ->
  let '(g', x) := lgr_del_reference g ref in
  (~ defined_ref g ref -> x = Raise (ReferenceNotDefined ref) /\ g' = g) /\
  (defined_ref g ref ->
    x = Ok tt /\
    ~ cited g' ref /\
    (forall r, dget String.eqb r (rm_refs (lg_refs g')) = if String.eqb r ref then None else dget String.eqb r (rm_refs (lg_refs g))) /\
    (forall c, lookup (lg_rep g') c = option_map (uncite ref) (lookup (lg_rep g) c)) /\
    rep_ranges (lg_rep g') = rep_ranges (lg_rep g) /\ lg_tags g' = lg_tags g /\ lg_types g' = lg_types g /\
    lg_db g' = lg_db g /\ lg_raise g' = lg_raise g).
Proof. exact del_reference_spec. Qed.
Print Assumptions C13_del_reference_partial.

(** A repeated reference that was forced survives. *)
Theorem C13_forced_duplicate_refuted : exists ops, let g := fst (lgr_run (new_lgr None true) ops) in
    let '(g1, x1) := lgr_del_reference g "0" in
    let '(g2, x2) := lgr_del_reference g1 "0" in
    x1 = Ok tt /\ cited g1 "0" /\ ~ defined_ref g1 "0" /\
    x2 = Raise (ReferenceNotDefined "0") /\ g2 <> g1.
Proof. exact forced_duplicate_reference_survives. Qed.
Print Assumptions C13_forced_duplicate_refuted.

Example C11_C13_nontrivial :
  let g := fst (lgr_run (new_lgr None true) sample_ops) in
  tag_tidy g /\ ref_tidy g /\ carries g "t" 22 /\ cited g "0" /\ defined_ref g "0".
Proof. exact sample_tidy. Qed.
