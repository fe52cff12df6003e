(** Model of lgr/tools/diff_collisions.py and of the collision test of
    lgr/tools/annotate.py.  No proofs here.

    A label is its list of code points.  Not modelled: reading the label files,
    the formatting of the output, the rule logs and action indexes that are
    stored beside the dispositions, and the disposition counts of the dump. *)
From Verif Require Import Base.
Open Scope string_scope.
Open Scope list_scope.

(** diff_collisions.py:19-21. *)
Inductive category : Type := CPrimary | CVariant | CTld.
(** diff_collisions.py:79-88: 'label'/'cp', 'cat' and 'disp'. *)
Record centry : Type := mkCe { ce_cp : cps; ce_cat : category; ce_disp : dict cps (option string) }.
Definition ctable := dict cps (list centry).

(** Items of cached_indexes: an index, the text 'NotInLGR', or another text. *)
Inductive cached : Type := CachedIndex (i : cps) | CachedNotIn | CachedText.

Section Collisions.
  (** lgr.generate_index_label and lgr.compute_label_disposition(label,
      include_invalid=True, with_labels=...), [] standing for None. *)
  Variable index : cps -> res cps.
  Variable listing : cps -> list cps -> list (cps * option string) * res unit.

  (** diff_collisions.py:76-88. *)
  Definition add_entry (t : ctable) (i l : cps) (cat : category) : ctable :=
    let old := match dget cps_eqb i t with Some es => es | None => [] end in
    dset cps_eqb i (old ++ [mkCe l cat [(l, Some "-")]]) t.

  (** diff_collisions.py:24-35 _compute_indexes, 64-88 _get_indexes. *)
  Fixpoint add_labels (tld : bool) (t : ctable) (missing : list cps) (labels : list cps)
    : ctable * list cps * res unit :=
    match labels with
    | [] => (t, missing, Ok tt)
    | l :: labels' =>
        match index l with
        | Raise (NotInLGR _) => add_labels tld t (if tld then missing else missing ++ [l]) labels'
        | Raise e => (t, missing, Raise e)
        | Ok i => add_labels tld (add_entry t i l (if tld then CTld else CPrimary)) missing labels'
        end
    end.

  (** diff_collisions.py:38-41 _get_cached_indexes, 64-88. *)
  Fixpoint add_cached (t : ctable) (missing : list cps) (c : list (cps * cached)) : ctable * list cps :=
    match c with
    | [] => (t, missing)
    | (l, CachedIndex i) :: c' => add_cached (add_entry t i l CPrimary) missing c'
    | (l, CachedNotIn) :: c' => add_cached t (missing ++ [l]) c'
    | (_, CachedText) :: c' => add_cached t missing c'
    end.

  (** diff_collisions.py:124-142: entry for a variant of [p]. *)
  Definition record_variant (p v : cps) (d : option string) (es : list centry) : res (list centry) :=
    match filter (fun e => cps_eqb (ce_cp e) v) es with
    | [] => Ok (es ++ [mkCe v CVariant [(p, d)]])
    | [_] => Ok (map (fun e => if cps_eqb (ce_cp e) v then mkCe (ce_cp e) (ce_cat e) (dset cps_eqb p d (ce_disp e)) else e) es)
    | _ => Raise AssertionError
    end.
  Fixpoint record_variants (p : cps) (vs : list (cps * option string)) (es : list centry) : list centry * res unit :=
    match vs with
    | [] => (es, Ok tt)
    | (v, d) :: vs' =>
        match record_variant p v d es with
        | Raise e => (es, Raise e)
        | Ok es' => record_variants p vs' es'
        end
    end.

  (** diff_collisions.py:105-142: the primaries of an index. *)
  Fixpoint expand_primaries (with_labels : list cps) (ps : list centry) (es : list centry) : list centry * res unit :=
    match ps with
    | [] => (es, Ok tt)
    | p :: ps' =>
        let '(vs, x) := listing (ce_cp p) with_labels in
        match record_variants (ce_cp p) vs es with
        | (es', Raise e) => (es', Raise e)
        | (es', Ok _) => match x with
                         | Raise e => (es', Raise e)
                         | Ok _ => expand_primaries with_labels ps' es'
                         end
        end
    end.

  (** diff_collisions.py:98-142.  [l] is the copy that is walked through. *)
  Fixpoint expand_indexes (keep quiet : bool) (l : list (cps * list centry)) (t : ctable) : ctable * res unit :=
    match l with
    | [] => (t, Ok tt)
    | (i, ps) :: l' =>
        if Nat.ltb (length ps) 2 && negb keep then expand_indexes keep quiet l' (ddel cps_eqb i t)
        else if negb keep && quiet then expand_indexes keep quiet l' t
        else match dget cps_eqb i t with
             | None => (t, Raise (KeyErrorCp 0))
             | Some es =>
                 let '(es', x) := expand_primaries (if keep then [] else map ce_cp ps) ps es in
                 let t' := dset cps_eqb i es' t in
                 match x with
                 | Raise e => (t', Raise e)
                 | Ok _ => expand_indexes keep quiet l' t'
                 end
             end
    end.

  (** diff_collisions.py:44-144 _generate_indexes; the order of [tlds] is that
      of the set difference. *)
  Definition generate_indexes (labels tlds : list cps) (keep quiet : bool) (cache : list (cps * cached))
    : res (ctable * list cps) :=
    match add_labels false [] [] labels with
    | (_, _, Raise e) => Raise e
    | (t1, m1, Ok _) =>
        let '(t2, m2) := add_cached t1 m1 cache in
        match add_labels true t2 m2 (filter (fun l => negb (memb cps_eqb l labels)) tlds) with
        | (_, _, Raise e) => Raise e
        | (t3, m3, Ok _) =>
            match expand_indexes keep quiet t3 t3 with
            | (_, Raise e) => Raise e
            | (t4, Ok _) => Ok (t4, m3)
            end
        end
    end.

  (** diff_collisions.py:267-277 dump_collisions. *)
  Fixpoint dump_collisions (colliding1 : list cps) (list2 : option (list cps)) : list (cps * cps) :=
    match colliding1 with
    | [] => []
    | l1 :: rest =>
        let l2 := match list2 with None => rest | Some l => l end in
        map (fun l => (l1, l)) (filter (fun l => negb (cps_eqb l1 l)) l2) ++ dump_collisions rest (Some l2)
    end.

  (** diff_collisions.py:327-346 _write_simple_output: the pairs announced as
      collisions with labels and with TLDs; [order] is that of the sets. *)
  Definition simple_output (order : list cps -> list cps) (labels tlds : list cps) (t : ctable)
    : list (cps * cps) * list (cps * cps) :=
    let inside (l : list cps) (es : list centry) := order (filter (fun x => memb cps_eqb x (map ce_cp es)) l) in
    (flat_map (fun es => let ls := inside labels es in
                 if Nat.ltb 1 (length ls) then dump_collisions ls None else []) (dvals t),
     flat_map (fun es => dump_collisions (inside labels es) (Some (inside tlds es))) (dvals t)).

  (** diff_collisions.py:522-582 basic_collision: announced collisions, labels
      not in the LGR. *)
  Definition basic_collision (order : list cps -> list cps) (labels tlds : list cps)
    : res (list (cps * cps) * list (cps * cps) * list cps) :=
    bind (generate_indexes labels tlds false true []) (fun p =>
      Ok (simple_output order labels tlds (fst p), snd p)).

  (** diff_collisions.py:585-602 get_collisions. *)
  Definition get_collisions (labels : list cps) (quiet : bool) (cache : list (cps * cached)) : res ctable :=
    bind (generate_indexes labels [] false quiet cache) (fun p => Ok (fst p)).

  (** annotate.py:66-86: what lgr_set_annotate says of a valid, eligible label:
      nothing, in the set, or colliding.  The list given to get_collisions
      becomes a set there. *)
  Inductive set_verdict : Type := NoCollision | InSet | Collides.
  Definition set_annotation (filtered : list cps) (label : cps) : res set_verdict :=
    bind (get_collisions (dedup cps_eqb (filtered ++ [label])) false []) (fun t =>
      Ok (match t with
          | _ :: _ => Collides
          | [] => if memb cps_eqb label filtered then InSet else NoCollision
          end)).

  (** diff_collisions.py:349-381 _full_dump: dispositions looked up for each
      primary; a missing one raises InvalidSymmetry (here LGRException). *)
  Definition dump_primary (es : list centry) (p : cps) : res (list (cps * option string)) :=
    mapM_res (fun e => match dget cps_eqb p (ce_disp e) with
                       | Some d => Ok (ce_cp e, d)
                       | None => Raise LGRException
                       end) es.
  Definition full_dump (t : ctable) : res (list (list (cps * option string))) :=
    mapM_res (fun q => dump_primary (fst q) (snd q))
      (flat_map (fun es => map (fun p => (es, ce_cp p)) (filter (fun e => match ce_cat e with CPrimary => true | _ => false end) es)) (dvals t)).

  (** diff_collisions.py:245-264 _get_new_variants. *)
  Definition new_variants (new old : list centry) : list centry :=
    filter (fun n => negb (existsb (fun o => cps_eqb (ce_cp o) (ce_cp n)) old)) new.

  (** diff_collisions.py:208-242 _compare_labels: None when nothing changed. *)
  Definition compare_labels (primary : cps) (e1 e2 : centry) : res (option (option string * option string)) :=
    match dget cps_eqb primary (ce_disp e1), dget cps_eqb primary (ce_disp e2) with
    | Some d1, Some d2 => Ok (if ostring_eqb d1 d2 then None else Some (d2, d1))
    | _, _ => Raise LGRException
    end.

  (** diff_collisions.py:147-205 _compare, for one label: the changed
      dispositions (label, in LGR 2, in LGR 1), the added and removed variants. *)
  Record changes : Type := mkChanges {
    cg_disp : list (cps * option string * option string);
    cg_added : list cps;
    cg_removed : list cps
  }.
  Definition has_disp (label : cps) (e : centry) : bool := dmem cps_eqb label (ce_disp e).
  Definition compare_one (label : cps) (es1 es2 : list centry) : res changes :=
    bind (mapM_res (fun q => bind (compare_labels label (snd q) (fst q)) (fun r =>
                      Ok (match r with Some (d2, d1) => [(ce_cp (fst q), d2, d1)] | None => [] end)))
            (flat_map (fun e2 => map (fun e1 => (e2, e1)) (filter (fun e1 => cps_eqb (ce_cp e1) (ce_cp e2)) es1)) es2))
      (fun ds =>
        let added := new_variants es2 es1 in
        let removed := new_variants es1 es2 in
        if negb (forallb (has_disp label) added && forallb (has_disp label) removed) then Raise LGRException
        else Ok (mkChanges (concat ds) (map ce_cp added) (map ce_cp removed))).
End Collisions.

(** diff_collisions.py:385-457 diff: for each label in both LGRs, the changes. *)
Definition diff_labels (index1 index2 : cps -> res cps)
  (listing1 listing2 : cps -> list cps -> list (cps * option string) * res unit)
  (labels : list cps) (quiet : bool) : res (list (cps * changes)) :=
  bind (generate_indexes index1 listing1 labels [] true quiet []) (fun p1 =>
  bind (generate_indexes index2 listing2 labels [] true quiet []) (fun p2 =>
  bind (mapM_res (fun l => match index1 l with
                           | Raise (NotInLGR _) => Ok []
                           | Raise e => Raise e
                           | Ok i1 => match index2 l with
                                      | Raise (NotInLGR _) => Ok []
                                      | Raise e => Raise e
                                      | Ok i2 => Ok [(l, i1, i2)]
                                      end
                           end) labels) (fun q =>
  mapM_res (fun x => let '(l, i1, i2) := x in
    match dget cps_eqb i1 (fst p1), dget cps_eqb i2 (fst p2) with
    | Some es1, Some es2 => bind (compare_one l es1 es2) (fun c => Ok (l, c))
    | _, _ => Raise (KeyErrorCp 0)
    end) (concat q)))).
