(** Specification vocabulary for the editing operations of an LGR. *)
From Verif Require Import Base CharModel RepSpec RefModel LgrModel.

(** A list of checks made in order: a check fails with an exception; the first
    failing one decides ([None]: all pass). *)
Fixpoint first_failing (checks : list (exn -> Prop)) (r : option exn) : Prop :=
  match checks with
  | [] => r = None
  | P :: l => (exists e, P e /\ r = Some e) \/ ((forall e, ~ P e) /\ first_failing l r)
  end.

(** [x] is the first element of [l] having property [P]. *)
Definition first_such {A} (P : A -> Prop) (l : list A) (x : A) : Prop :=
  exists pre post, l = pre ++ x :: post /\ P x /\ forall y, In y pre -> ~ P y.

(** The Unicode database (if any) does not accept this code point. *)
Definition idna_invalid (g : lgr) (x : N) : Prop :=
  exists d, lg_db g = Some d /\ db_idna_valid d x = false.
Definition present (g : lgr) (c : cps) : Prop := lookup (lg_rep g) c <> None.
Definition defined_ref (g : lgr) (r : string) : Prop := dget String.eqb r (rm_refs (lg_refs g)) <> None.

(** How code point [x] of an input is refused by the validating repertoire
    [v]: it cannot even be looked up there, or it is absent and that is not
    overridden. *)
Definition refused_by (v : lgr) (override force : bool) (whole : cps) (x : N) (e : exn) : Prop :=
  (lg_raise v = true /\ idna_invalid v x /\ e = CharInvalidIdnaProperty [x]) \/
  (~ (lg_raise v = true /\ idna_invalid v x) /\ ~ present v [x] /\ override = false /\ force = false /\
   e = NotInRepertoire whole).

Definition chk_empty (c : cps) (e : exn) : Prop :=
  c = [] /\ e = LGRApiInvalidParameter "cp_or_sequence".
Definition chk_idna (g : lgr) (c : cps) (e : exn) : Prop :=
  lg_raise g = true /\ exists x, first_such (idna_invalid g) c x /\ e = CharInvalidIdnaProperty [x].
Definition chk_context (force : bool) (w nw : option string) (e0 e : exn) : Prop :=
  force = false /\ w <> None /\ nw <> None /\ e = e0.
Definition chk_validating (vr : option lgr) (override force : bool) (whole c : cps) (e : exn) : Prop :=
  exists v x, vr = Some v /\
    first_such (fun y => exists e', refused_by v override force whole y e') c x /\
    refused_by v override force whole x e.
Definition chk_ref_defined (g : lgr) (force : bool) (refs : list string) (e : exn) : Prop :=
  force = false /\ exists r, first_such (fun r => ~ defined_ref g r) refs r /\ e = ReferenceNotDefined r.
Definition chk_ref_dup (force : bool) (refs : list string) (e0 e : exn) : Prop :=
  force = false /\ ~ NoDup refs /\ e = e0.
Definition chk_seq_tag (force : bool) (c : cps) (tags : list string) (e : exn) : Prop :=
  force = false /\ (1 < length c)%nat /\ tags <> [] /\ e = LGRFormatException SEQUENCE_NO_TAG.
Definition chk_tag_dup (force : bool) (tags : list string) (e : exn) : Prop :=
  force = false /\ ~ NoDup tags /\ e = LGRFormatException DUPLICATE_TAG.
Definition chk_present (g : lgr) (c : cps) (e : exn) : Prop :=
  present g c /\ e = CharAlreadyExists c.

(** The documented order of the checks of [add_cp]. *)
Definition add_cp_checks (g : lgr) (c : cps) (refs tags : list string) (w nw : option string)
  (vr : option lgr) (override force : bool) : list (exn -> Prop) :=
  [ chk_empty c;
    chk_idna g c;
    chk_context force w nw (CharInvalidContextRule c);
    chk_validating vr override force c c;
    chk_ref_defined g force refs;
    chk_ref_dup force refs (DuplicateReference c);
    chk_seq_tag force c tags;
    chk_tag_dup force tags;
    chk_present g c ].

(** The references of a list that are defined, in order. *)
Definition kept_refs (g : lgr) (refs : list string) : list string :=
  filter (fun r => dmem String.eqb r (rm_refs (lg_refs g))) refs.

Definition kind_of (c : cps) : kind := match c with [_] => KChar | _ => KSeq end.

(** Status of one code point in a range pre-check. *)
Inductive range_status (g : lgr) (vr : option lgr) (x : N) : option exn -> Prop :=
| RSt_idna : idna_invalid g x -> range_status g vr x (Some (CharInvalidIdnaProperty [x]))
| RSt_rep : forall v, ~ idna_invalid g x -> vr = Some v -> ~ present v [x] ->
    range_status g vr x (Some (NotInRepertoire [x]))
| RSt_exists : ~ idna_invalid g x -> (forall v, vr = Some v -> present v [x]) -> present g [x] ->
    range_status g vr x (Some (CharAlreadyExists [x]))
| RSt_ok : ~ idna_invalid g x -> (forall v, vr = Some v -> present v [x]) -> ~ present g [x] ->
    range_status g vr x None.

(** The validating repertoire itself raises when asked about [x]. *)
Definition vr_raises (vr : option lgr) (x : N) : Prop :=
  exists v, vr = Some v /\ lg_raise v = true /\ idna_invalid v x.

(** States reachable from a new LGR by any history of editing operations. *)
Definition lgr_reachable (g : lgr) : Prop :=
  exists db allow ops, g = fst (lgr_run (new_lgr db allow) ops).

(** ** Range insertion *)

(** The pre-check status of [x] makes [add_range] fail. *)
Inductive blocks (g : lgr) (vr : option lgr) (override force : bool) (x : N) : exn -> Prop :=
| Bl_rep : range_status g vr x (Some (NotInRepertoire [x])) -> override = false -> force = false ->
    blocks g vr override force x (NotInRepertoire [x])
| Bl_idna : idna_invalid g x -> lg_raise g = true -> force = false ->
    blocks g vr override force x (CharInvalidIdnaProperty [x])
| Bl_exists : range_status g vr x (Some (CharAlreadyExists [x])) -> force = false ->
    blocks g vr override force x (CharAlreadyExists [x]).

(** [x] is among the code points [add_range] will insert. *)
Definition to_insert (g : lgr) (vr : option lgr) (override force : bool) (x : N) : Prop :=
  range_status g vr x None \/
  (range_status g vr x (Some (NotInRepertoire [x])) /\ (override = true \/ force = true)) \/
  (idna_invalid g x /\ lg_raise g = false).

(** The checks of [add_range] made before anything is inserted. *)
Definition add_range_checks (g : lgr) (f l : N) (refs tags : list string) (w nw : option string)
  (vr : option lgr) (override force : bool) : list (exn -> Prop) :=
  [ (fun e => l < f /\ e = LGRApiInvalidParameter "first_cp");
    chk_context force w nw (RangeInvalidContextRule f l);
    (fun e => exists x, first_such (fun y => ~ idna_invalid g y /\ vr_raises vr y) (nrange f l) x /\
                        e = CharInvalidIdnaProperty [x]);
    (fun e => exists x, first_such (fun y => exists e', blocks g vr override force y e') (nrange f l) x /\
                        blocks g vr override force x e);
    chk_ref_defined g force refs;
    chk_ref_dup force refs (DuplicateReference [f]);
    chk_tag_dup force tags;
    (fun e => (forall x, f <= x <= l -> ~ to_insert g vr override force x) /\ e = IndexError) ].

(** ** Histories that keep ranges whole *)

(** No single deletion of a member of a range, and no range insertion that
    stops half way. *)
Definition tidy_op (g : lgr) (o : lgr_op) : Prop :=
  match o with
  | LDelCp c => forall ch, lookup (lg_rep g) c = Some ch -> is_range ch = false
  | LAddRange _ _ _ _ _ _ _ _ _ _ | LAddCodepoints _ _ _ _ =>
      snd (lgr_step g o) = LUnit \/ fst (lgr_step g o) = g
  | _ => True
  end.
Inductive tidy : lgr -> Prop :=
| tidy_new : forall db allow, tidy (new_lgr db allow)
| tidy_step : forall g o, tidy g -> tidy_op g o -> tidy (fst (lgr_step g o)).

(** The same entry, standing alone instead of being a member of a range. *)
Definition single (ch : char) : char :=
  mkChar (ch_cp ch) (match ch_kind ch with KRange _ _ => KChar | k => k end) (ch_comment ch) (ch_refs ch)
         (ch_tags ch) (ch_when ch) (ch_not_when ch) (ch_variants ch).

(** ** Tags and references *)

(** Code point [x] carries [tag] / is in the class of [tag]. *)
Definition carries (g : lgr) (tag : string) (x : N) : Prop :=
  exists ch, lookup (lg_rep g) [x] = Some ch /\ In tag (ch_tags ch).
Definition in_tag_class (g : lgr) (tag : string) (x : N) : Prop :=
  exists s, dget String.eqb tag (lg_tags g) = Some s /\ In x s.

(** Histories that keep ranges whole, never force a tag on a sequence nor a
    repeated tag, and delete a range only when it carries no tag. *)
Definition tag_tidy_op (g : lgr) (o : lgr_op) : Prop :=
  tidy_op g o /\
  match o with
  | LAddCp c _ _ tags _ _ _ _ force => force = true -> NoDup tags /\ ((1 < length c)%nat -> tags = [])
  | LAddRange _ _ _ _ tags _ _ _ _ force => force = true -> NoDup tags
  | LDelRange f l => forall x tag, f <= x <= l -> ~ carries g tag x
  | _ => True
  end.
Inductive tag_tidy : lgr -> Prop :=
| tt_new : forall db allow, tag_tidy (new_lgr db allow)
| tt_step : forall g o, tag_tidy g -> tag_tidy_op g o -> tag_tidy (fst (lgr_step g o)).

(** Some entry or some variant of an entry cites [ref]. *)
Definition cited (g : lgr) (ref : string) : Prop :=
  exists c ch, lookup (lg_rep g) c = Some ch /\
    (In ref (ch_refs ch) \/ exists v, In v (get_variants ch) /\ In ref (v_refs v)).

(** Histories that never force a repeated reference. *)
Definition ref_tidy_op (o : lgr_op) : Prop :=
  match o with
  | LAddCp _ _ refs _ _ _ _ _ force => force = true -> NoDup refs
  | LAddRange _ _ _ refs _ _ _ _ _ force => force = true -> NoDup refs
  | LAddVariant _ _ _ _ _ _ refs _ _ force => force = true -> NoDup refs
  | _ => True
  end.
Inductive ref_tidy : lgr -> Prop :=
| rt_new : forall db allow, ref_tidy (new_lgr db allow)
| rt_step : forall g o, ref_tidy g -> ref_tidy_op o -> ref_tidy (fst (lgr_step g o)).

(** The same entry without any citation of [ref]. *)
Definition drop_ref (ref : string) (l : list string) : list string :=
  filter (fun r => negb (String.eqb r ref)) l.
Definition uncite (ref : string) (ch : char) : char :=
  mkChar (ch_cp ch) (ch_kind ch) (ch_comment ch) (drop_ref ref (ch_refs ch)) (ch_tags ch) (ch_when ch)
    (ch_not_when ch)
    (map (fun kv : cps * list variant =>
            (fst kv, map (fun v => mkVariant (v_cp v) (v_type v) (v_when v) (v_not_when v) (v_comment v)
                                             (drop_ref ref (v_refs v))) (snd kv)))
         (ch_variants ch)).
