(** Model of the editing part of the LGR class (lgr/core.py).  No proofs here.

    Simplifications: an [int] argument is the one-element sequence; [ref=None]
    and [tag=None] are the empty list; the tag classes, stored in
    [classes_lookup] under a reserved prefix that no class name can carry
    (classes.py:15-18), are a dictionary of their own; log messages dropped. *)
From Verif Require Import Base CharModel UtilsModel RefModel.

(** What the code asks of a Unicode database: is the IDNA property of a code
    point one of the valid ones (utils.py:235-243), and its script. *)
Record unidb : Type := mkDb { db_idna_valid : N -> bool; db_script : N -> string }.

(** core.py:84-142 LGR.__init__ (the attributes used by the editing
    operations).  [lg_raise] is [raise_on_invalid_property]; [lg_types] is the
    set [types]; [lg_tags] maps a tag to the code points of its class. *)
Record lgr : Type := mkLgr {
  lg_rep : repertoire;
  lg_db : option unidb;
  lg_raise : bool;
  lg_types : list (option string);
  lg_refs : refman;
  lg_tags : dict string (list N)
}.
Definition new_lgr (db : option unidb) (allow_invalid : bool) : lgr :=
  mkLgr empty_rep db (negb allow_invalid) [] empty_refman [].

Definition set_rep (g : lgr) (r : repertoire) : lgr :=
  mkLgr r (lg_db g) (lg_raise g) (lg_types g) (lg_refs g) (lg_tags g).
Definition set_refs (g : lgr) (m : refman) : lgr :=
  mkLgr (lg_rep g) (lg_db g) (lg_raise g) (lg_types g) m (lg_tags g).
Definition set_tags (g : lgr) (t : dict string (list N)) : lgr :=
  mkLgr (lg_rep g) (lg_db g) (lg_raise g) (lg_types g) (lg_refs g) t.
Definition add_type (g : lgr) (t : option string) : lgr :=
  mkLgr (lg_rep g) (lg_db g) (lg_raise g)
        (if memb ostring_eqb t (lg_types g) then lg_types g else t :: lg_types g)
        (lg_refs g) (lg_tags g).

(** core.py:1952-2022 _check_convert_cp (assert_in_script is never used);
    [raise_] is the value of [raise_on_invalid_property]. *)
Definition check_convert_with (db : option unidb) (raise_ : bool) (c : cps) : res cps :=
  match c with
  | [] => Raise (LGRApiInvalidParameter "cp_or_sequence")
  | _ =>
      match db with
      | None => Ok c
      | Some d =>
          match find (fun x => negb (db_idna_valid d x)) c with
          | Some x => if raise_ then Raise (CharInvalidIdnaProperty [x]) else Ok c
          | None => Ok c
          end
      end
  end.
Definition check_convert (g : lgr) (c : cps) : res cps :=
  check_convert_with (lg_db g) (lg_raise g) c.

(** core.py:371-388 check_cp. *)
Definition check_cp (g : lgr) (c : cps) : res bool :=
  bind (check_convert g c) (fun c => rep_contains (lg_rep g) c).

(** core.py:303-316 (add_cp) and 691-706 (add_variant): check every code point
    against the validating repertoire; [whole] is the payload of
    NotInRepertoire. *)
Fixpoint check_against (vr : lgr) (override force : bool) (whole l : cps) : res unit :=
  match l with
  | [] => Ok tt
  | x :: l' =>
      match check_cp vr [x] with
      | Raise e => Raise e
      | Ok true => check_against vr override force whole l'
      | Ok false => if negb override && negb force then Raise (NotInRepertoire whole)
                    else check_against vr override force whole l'
      end
  end.
Definition check_validating (vr : option lgr) (override force : bool) (whole l : cps) : res unit :=
  match vr with None => Ok tt | Some v => check_against v override force whole l end.

(** core.py:318-328 (and 502-512, 708-721): defined references are kept. *)
Fixpoint collect_refs (m : refman) (force : bool) (refs : list string) : res (list string) :=
  match refs with
  | [] => Ok []
  | r :: l =>
      if dmem String.eqb r (rm_refs m)
      then bind (collect_refs m force l) (fun l' => Ok (r :: l'))
      else if force then collect_refs m force l else Raise (ReferenceNotDefined r)
  end.

(** len(set(l)) != len(l); also "some Counter value is above one". *)
Definition has_dup (l : list string) : bool :=
  negb (Nat.eqb (length (dedup String.eqb l)) (length l)).

(** classes.py:96-108 add_codepoint, 110-123 del_codepoint on a set. *)
Definition set_add (s : list N) (x : N) : list N := if memb N.eqb x s then s else x :: s.
Definition set_update (s c : list N) : list N := fold_left set_add c s.
Definition set_discard (s c : list N) : list N := filter (fun x => negb (memb N.eqb x c)) s.

(** core.py:2094-2109 _add_cp_to_tag_classes. *)
Definition add_tag_class (c : cps) (t : dict string (list N)) (tag : string) : dict string (list N) :=
  dset String.eqb tag
       (set_update (match dget String.eqb tag t with Some s => s | None => [] end) c) t.
Definition add_cp_to_tag_classes (g : lgr) (c : cps) (tags : list string) : lgr :=
  set_tags g (fold_left (add_tag_class c) tags (lg_tags g)).

(** core.py:2111-2124 _del_cp_from_tag_classes. *)
Definition del_tag_class (c : cps) (t : dict string (list N)) (tag : string) : dict string (list N) :=
  match dget String.eqb tag t with
  | Some s => dset String.eqb tag (set_discard s c) t
  | None => t
  end.
Definition del_cp_from_tag_classes (g : lgr) (c : cps) (tags : list string) : lgr :=
  set_tags g (fold_left (del_tag_class c) tags (lg_tags g)).

Definition is_some {A} (o : option A) : bool := match o with Some _ => true | None => false end.

(** core.py:241-369 add_cp. *)
Definition lgr_add_cp (g : lgr) (c0 : cps) (comment : option string) (refs tags : list string)
  (when_ not_when : option string) (vr : option lgr) (override force : bool) : lgr * res unit :=
  match check_convert g c0 with
  | Raise e => (g, Raise e)
  | Ok c =>
    if negb force && is_some when_ && is_some not_when then (g, Raise (CharInvalidContextRule c))
    else
    match check_validating vr override force c c with
    | Raise e => (g, Raise e)
    | Ok _ =>
      match collect_refs (lg_refs g) force refs with
      | Raise e => (g, Raise e)
      | Ok references =>
        if has_dup references && negb force then (g, Raise (DuplicateReference c))
        else if Nat.ltb 1 (length c) && Nat.ltb 0 (length tags) && negb force
        then (g, Raise (LGRFormatException SEQUENCE_NO_TAG))
        else if has_dup tags && negb force then (g, Raise (LGRFormatException DUPLICATE_TAG))
        else
          match rep_add_char (lg_rep g) c comment references tags when_ not_when with
          | (r, Raise e) => (set_rep g r, Raise e)
          | (r, Ok _) => (add_cp_to_tag_classes (set_rep g r) c tags, Ok tt)
          end
      end
    end
  end.

(** core.py:390-415 del_cp. *)
Definition lgr_del_cp (g : lgr) (c0 : cps) : lgr * res unit :=
  match check_convert g c0 with
  | Raise e => (g, Raise e)
  | Ok c =>
    match rep_get_char (lg_rep g) c with
    | Raise e => (g, Raise e)
    | Ok ch =>
      match rep_del_char (lg_rep g) c with
      | (r, Raise e) => (set_rep g r, Raise e)
      | (r, Ok _) => (del_cp_from_tag_classes (set_rep g r) c (ch_tags ch), Ok tt)
      end
    end
  end.

(** core.py:861-924 check_range: the status of one code point; [None] = OK.
    Inside, IDNA failures always raise (core.py:894-905). *)
Definition cp_status (g : lgr) (vr : option lgr) (x : N) : res (option exn) :=
  match check_convert_with (lg_db g) true [x] with
  | Raise e => Ok (Some e)
  | Ok c =>
      bind (match vr with None => Ok true | Some v => check_cp v [x] end) (fun ok =>
      if negb ok then Ok (Some (NotInRepertoire [x]))
      else bind (rep_contains (lg_rep g) c) (fun b =>
           Ok (if b then Some (CharAlreadyExists c) else None)))
  end.
Definition check_range (g : lgr) (first last : N) (vr : option lgr) : res (list (N * option exn)) :=
  if N.ltb last first then Raise (LGRApiInvalidParameter "first_cp")
  else mapM_res (fun x => bind (cp_status g vr x) (fun s => Ok (x, s))) (nrange first last).

(** core.py:474-500: the code points of the range to insert. *)
Fixpoint select_cps (g : lgr) (override force : bool) (l : list (N * option exn)) : res (list N) :=
  match l with
  | [] => Ok []
  | (x, s) :: l' =>
      let keep := bind (select_cps g override force l') (fun r => Ok (x :: r)) in
      let skip := select_cps g override force l' in
      match s with
      | None => keep
      | Some (NotInRepertoire c as e) => if negb override && negb force then Raise e else keep
      | Some (CharInvalidIdnaProperty c as e) =>
          if negb (lg_raise g) then keep else if negb force then Raise e else skip
      | Some (CharAlreadyExists c as e) => if negb force then Raise e else skip
      | Some _ => Raise LGRException
      end
  end.

(** core.py:2079-2092: insertion of the collapsed ranges. *)
Fixpoint insert_ranges (r : repertoire) (comment : option string) (refs tags : list string)
  (when_ not_when : option string) (l : list (N * N)) : repertoire * res unit :=
  match l with
  | [] => (r, Ok tt)
  | (f, la) :: l' =>
      let '(r1, x) :=
        if N.eqb f la
        then let '(r1, y) := rep_add_char r [f] comment refs tags when_ not_when in
             (r1, bind y (fun _ => Ok tt))
        else rep_add_range r f la comment refs tags when_ not_when true in
      match x with
      | Raise e => (r1, Raise e)
      | Ok _ => insert_ranges r1 comment refs tags when_ not_when l'
      end
  end.
(** core.py:2055-2092 _insert_list. *)
Definition insert_list (r : repertoire) (codepoints : list N) (comment : option string)
  (refs tags : list string) (when_ not_when : option string) : repertoire * res unit :=
  match collapse_codepoints codepoints with
  | Raise e => (r, Raise e)
  | Ok rs => insert_ranges r comment refs tags when_ not_when rs
  end.

(** core.py:417-550 add_range. *)
Definition lgr_add_range (g : lgr) (first last : N) (comment : option string)
  (refs tags : list string) (when_ not_when : option string) (vr : option lgr)
  (override force : bool) : lgr * res unit :=
  if N.ltb last first then (g, Raise (LGRApiInvalidParameter "first_cp"))
  else if negb force && is_some when_ && is_some not_when
  then (g, Raise (RangeInvalidContextRule first last))
  else
  match check_range g first last vr with
  | Raise e => (g, Raise e)
  | Ok statuses =>
    match select_cps g override force statuses with
    | Raise e => (g, Raise e)
    | Ok codepoints =>
      match collect_refs (lg_refs g) force refs with
      | Raise e => (g, Raise e)
      | Ok references =>
        if has_dup references && negb force then (g, Raise (DuplicateReference [first]))
        else if has_dup tags && negb force then (g, Raise (LGRFormatException DUPLICATE_TAG))
        else
          match insert_list (lg_rep g) codepoints comment references tags when_ not_when with
          | (r, Raise e) => (set_rep g r, Raise e)
          | (r, Ok _) =>
              (fold_left (fun g x => add_cp_to_tag_classes g [x] tags) codepoints (set_rep g r), Ok tt)
          end
      end
    end
  end.

(** core.py:552-578 del_range. *)
Definition lgr_del_range (g : lgr) (first last : N) : lgr * res unit :=
  if N.ltb last first then (g, Raise (LGRApiInvalidParameter "first_cp"))
  else let '(r, x) := rep_del_range (lg_rep g) first last in (set_rep g r, x).

(** core.py:617-623: re-insertion loop of expand_range. *)
Fixpoint readd_loop (r : repertoire) (ch : char) (l : list N) : repertoire * res unit :=
  match l with
  | [] => (r, Ok tt)
  | x :: l' =>
      match rep_add_char r [x] (ch_comment ch) (ch_refs ch) (ch_tags ch) (ch_when ch) (ch_not_when ch) with
      | (r1, Raise e) => (r1, Raise e)
      | (r1, Ok _) => readd_loop r1 ch l'
      end
  end.

(** core.py:590-623 expand_range. *)
Definition lgr_expand_range (g : lgr) (first last : N) : lgr * res unit :=
  if N.ltb last first then (g, Raise (LGRApiInvalidParameter "first_cp"))
  else
  match bind (check_convert g [first]) (fun c => rep_get_char (lg_rep g) c) with
  | Raise e => (g, Raise e)
  | Ok ch =>
      match rep_del_range (lg_rep g) first last with
      | (r, Raise e) => (set_rep g r, Raise e)
      | (r, Ok _) => let '(r', x) := readd_loop r ch (nrange first last) in (set_rep g r', x)
      end
  end.

(** core.py:580-588 expand_ranges (over a copy of the list of ranges). *)
Fixpoint expand_loop (g : lgr) (l : list (N * N)) : lgr * res unit :=
  match l with
  | [] => (g, Ok tt)
  | (f, la) :: l' =>
      match lgr_expand_range g f la with
      | (g', Raise e) => (g', Raise e)
      | (g', Ok _) => expand_loop g' l'
      end
  end.
Definition lgr_expand_ranges (g : lgr) : lgr * res unit := expand_loop g (rep_ranges (lg_rep g)).

(** core.py:625-740 add_variant. *)
Definition lgr_add_variant (g : lgr) (c0 v0 : cps) (type_ when_ not_when comment : option string)
  (refs : list string) (vr : option lgr) (override force : bool) : lgr * res unit :=
  match bind (check_convert g c0) (fun c => bind (check_convert g v0) (fun v => Ok (c, v))) with
  | Raise e => (g, Raise e)
  | Ok (c, v) =>
    if negb force && is_some when_ && is_some not_when then (g, Raise (VariantInvalidContextRule c v))
    else
    match check_validating vr override force c v with
    | Raise e => (g, Raise e)
    | Ok _ =>
      match collect_refs (lg_refs g) force refs with
      | Raise e => (g, Raise e)
      | Ok references =>
        if has_dup references && negb force then (g, Raise (DuplicateReference c))
        else
          match rep_add_variant (lg_rep g) c (mkVariant v type_ when_ not_when comment references) with
          | (r, Raise e) => (set_rep g r, Raise e)
          | (r, Ok _) => (add_type (set_rep g r) type_, Ok tt)
          end
      end
    end
  end.

(** core.py:742-776 del_variant. *)
Definition lgr_del_variant (g : lgr) (c0 v : cps) (when_ not_when : option string) : lgr * res bool :=
  match check_convert g c0 with
  | Raise e => (g, Raise e)
  | Ok c => let '(r, x) := rep_del_variant (lg_rep g) c v when_ not_when in (set_rep g r, x)
  end.

(** core.py:778-803 get_variants, 805-832 get_variant, 834-859 get_char. *)
Definition lgr_get_variants (g : lgr) (c : cps) : res (list variant) :=
  bind (check_convert g c) (fun c => rep_get_variants (lg_rep g) c).
Definition lgr_get_variant (g : lgr) (c v : cps) : res (option (list variant)) :=
  bind (check_convert g c) (fun c => rep_get_variant (lg_rep g) c v).
Definition lgr_get_char (g : lgr) (c : cps) : res char :=
  bind (check_convert g c) (fun c => rep_get_char (lg_rep g) c).

(** core.py:926-957 add_codepoints. *)
Fixpoint add_collapsed (g : lgr) (comment : option string) (refs tags : list string)
  (l : list (N * N)) : lgr * res unit :=
  match l with
  | [] => (g, Ok tt)
  | (f, la) :: l' =>
      let '(g1, x) :=
        if N.eqb f la then lgr_add_cp g [f] comment refs tags None None None false false
        else lgr_add_range g f la comment refs tags None None None false false in
      match x with
      | Raise e => (g1, Raise e)
      | Ok _ => add_collapsed g1 comment refs tags l'
      end
  end.
Definition lgr_add_codepoints (g : lgr) (l : list N) (comment : option string)
  (refs tags : list string) : lgr * res unit :=
  match l with
  | [] => (g, Ok tt)
  | _ => match collapse_codepoints l with
         | Raise e => (g, Raise e)
         | Ok rs => add_collapsed g comment refs tags rs
         end
  end.

(** core.py:202-216 add_reference, 218-227 del_reference, 229-239 del_tag. *)
Definition lgr_add_reference (g : lgr) (value : string) (comment ref_id : option string)
  : lgr * res string :=
  let '(m, x) := rm_add (lg_refs g) value comment ref_id in (set_refs g m, x).
Definition lgr_del_reference (g : lgr) (ref : string) : lgr * res unit :=
  let g1 := set_rep g (rep_del_reference (lg_rep g) ref) in
  let '(m, x) := rm_del (lg_refs g1) ref in (set_refs g1 m, x).
Definition lgr_del_tag (g : lgr) (tag : string) : lgr :=
  set_tags (set_rep g (rep_del_tag (lg_rep g) tag)) (ddel String.eqb tag (lg_tags g)).

(** core.py:144-160 __getstate__ and __setstate__: what copying or pickling an
    LGR gives; the database is left out. *)
Definition lgr_copy (g : lgr) : lgr :=
  mkLgr (lg_rep g) None (lg_raise g) (lg_types g) (lg_refs g) (lg_tags g).

(** core.py:1429-1439 all_tags, 1494-1507 get_tag_classes. *)
Definition all_tags (g : lgr) : list string := dkeys (lg_tags g).

(** Histories of editing operations; after [LCopy] the copy is edited. *)
Inductive lgr_op : Type :=
| LAddCp (c : cps) (comment : option string) (refs tags : list string)
         (when_ not_when : option string) (vr : option lgr) (override force : bool)
| LDelCp (c : cps)
| LAddRange (first last : N) (comment : option string) (refs tags : list string)
            (when_ not_when : option string) (vr : option lgr) (override force : bool)
| LDelRange (first last : N)
| LExpandRange (first last : N)
| LExpandRanges
| LAddVariant (c v : cps) (type_ when_ not_when comment : option string) (refs : list string)
              (vr : option lgr) (override force : bool)
| LDelVariant (c v : cps) (when_ not_when : option string)
| LAddCodepoints (l : list N) (comment : option string) (refs tags : list string)
| LAddReference (value : string) (comment ref_id : option string)
| LDelReference (ref : string)
| LDelTag (tag : string)
| LCopy.

Inductive lgr_out : Type := LUnit | LBool (b : bool) | LStr (s : string) | LExn (e : exn).
Definition lout (r : res unit) : lgr_out := match r with Ok _ => LUnit | Raise e => LExn e end.

Definition lgr_step (g : lgr) (o : lgr_op) : lgr * lgr_out :=
  match o with
  | LAddCp c cm rf tg w nw vr ov fo =>
      let '(g', x) := lgr_add_cp g c cm rf tg w nw vr ov fo in (g', lout x)
  | LDelCp c => let '(g', x) := lgr_del_cp g c in (g', lout x)
  | LAddRange f l cm rf tg w nw vr ov fo =>
      let '(g', x) := lgr_add_range g f l cm rf tg w nw vr ov fo in (g', lout x)
  | LDelRange f l => let '(g', x) := lgr_del_range g f l in (g', lout x)
  | LExpandRange f l => let '(g', x) := lgr_expand_range g f l in (g', lout x)
  | LExpandRanges => let '(g', x) := lgr_expand_ranges g in (g', lout x)
  | LAddVariant c v ty w nw cm rf vr ov fo =>
      let '(g', x) := lgr_add_variant g c v ty w nw cm rf vr ov fo in (g', lout x)
  | LDelVariant c v w nw =>
      let '(g', x) := lgr_del_variant g c v w nw in
      (g', match x with Ok b => LBool b | Raise e => LExn e end)
  | LAddCodepoints l cm rf tg =>
      let '(g', x) := lgr_add_codepoints g l cm rf tg in (g', lout x)
  | LAddReference v c id =>
      let '(g', x) := lgr_add_reference g v c id in
      (g', match x with Ok s => LStr s | Raise e => LExn e end)
  | LDelReference r => let '(g', x) := lgr_del_reference g r in (g', lout x)
  | LDelTag t => (lgr_del_tag g t, LUnit)
  | LCopy => (lgr_copy g, LUnit)
  end.
Fixpoint lgr_run (g : lgr) (ops : list lgr_op) : lgr * list lgr_out :=
  match ops with
  | [] => (g, [])
  | o :: ops' => let '(g1, x) := lgr_step g o in
                 let '(g2, xs) := lgr_run g1 ops' in (g2, x :: xs)
  end.
