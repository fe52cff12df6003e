(** Abstract specification of a repertoire: a finite map from code point
    sequences to entries plus a bag of ranges.  Independent of the bucketed
    representation used by lgr/char.py. *)
From Verif Require Import Base CharModel.

(** Operations a user can perform on a repertoire. *)
Inductive rep_op : Type :=
| OpAddChar (c : cps) (comment : option string) (refs tags : list string)
            (when_ not_when : option string)
| OpDelChar (c : cps)
| OpAddRange (first last : N) (comment : option string) (refs tags : list string)
             (when_ not_when : option string) (skip_check : bool)
| OpDelRange (first last : N)
| OpAddVariant (c : cps) (v : variant)
| OpDelVariant (c vcp : cps) (when_ not_when : option string)
| OpDelReference (ref : string)
| OpDelTag (tag : string).

(** What the caller observes: normal return, a boolean, or an exception. *)
Inductive rep_out : Type :=
| OutUnit
| OutBool (b : bool)
| OutExn (e : exn).

Definition out_of {A} (r : res A) : rep_out :=
  match r with Ok _ => OutUnit | Raise e => OutExn e end.
Definition out_of_bool (r : res bool) : rep_out :=
  match r with Ok b => OutBool b | Raise e => OutExn e end.

(** The concrete step (the modelled code). *)
Definition rep_step (r : repertoire) (o : rep_op) : repertoire * rep_out :=
  match o with
  | OpAddChar c cm rf tg w nw =>
      let '(r', x) := rep_add_char r c cm rf tg w nw in (r', out_of x)
  | OpDelChar c => let '(r', x) := rep_del_char r c in (r', out_of x)
  | OpAddRange f l cm rf tg w nw sk =>
      let '(r', x) := rep_add_range r f l cm rf tg w nw sk in (r', out_of x)
  | OpDelRange f l => let '(r', x) := rep_del_range r f l in (r', out_of x)
  | OpAddVariant c v => let '(r', x) := rep_add_variant r c v in (r', out_of x)
  | OpDelVariant c v w nw =>
      let '(r', x) := rep_del_variant r c v w nw in (r', out_of_bool x)
  | OpDelReference ref => (rep_del_reference r ref, OutUnit)
  | OpDelTag t => (rep_del_tag r t, OutUnit)
  end.

Fixpoint rep_run (r : repertoire) (ops : list rep_op) : repertoire * list rep_out :=
  match ops with
  | [] => (r, [])
  | o :: ops' =>
      let '(r1, x) := rep_step r o in
      let '(r2, xs) := rep_run r1 ops' in (r2, x :: xs)
  end.

(** The abstract state. *)
Record astate : Type := mkA { a_map : cps -> option char; a_ranges : list (N * N) }.
Definition a_empty : astate := mkA (fun _ => None) [].

Definition upd (m : cps -> option char) (c : cps) (v : option char) : cps -> option char :=
  fun c' => if cps_eqb c' c then v else m c'.

(** The new range meets [rf,rl] without strictly containing it on both
    sides (what the code detects; see C05 for the refuted stronger claim). *)
Definition detected (first last : N) (rg : N * N) : bool :=
  let '(rf, rl) := rg in
  N.leb first rl && N.leb rf last && (N.leb rf first || N.leb last rl).

(** Insert the members of a range in increasing order until one is already
    present. *)
Fixpoint a_insert_range (m : cps -> option char) (mk : N -> char) (l : list N)
  : (cps -> option char) * rep_out :=
  match l with
  | [] => (m, OutUnit)
  | c :: l' =>
      match m [c] with
      | Some _ => (m, OutExn (CharAlreadyExists [c]))
      | None => a_insert_range (upd m [c] (Some (mk c))) mk l'
      end
  end.

Fixpoint a_delete_range (m : cps -> option char) (l : list N)
  : (cps -> option char) * rep_out :=
  match l with
  | [] => (m, OutUnit)
  | c :: l' =>
      match m [c] with
      | Some _ => a_delete_range (upd m [c] None) l'
      | None => (m, OutExn (NotInLGR [c]))
      end
  end.

Definition a_step (a : astate) (o : rep_op) : astate * rep_out :=
  match o with
  | OpAddChar c cm rf tg w nw =>
      match c with
      | [] => (a, OutExn AssertionError)
      | x :: t =>
          match a_map a c with
          | Some _ => (a, OutExn (CharAlreadyExists c))
          | None =>
              let k := match t with [] => KChar | _ => KSeq end in
              (mkA (upd (a_map a) c (Some (mkChar c k cm rf tg w nw []))) (a_ranges a),
               OutUnit)
          end
      end
  | OpDelChar c =>
      match c with
      | [] => (a, OutExn AssertionError)
      | _ => match a_map a c with
             | Some _ => (mkA (upd (a_map a) c None) (a_ranges a), OutUnit)
             | None => (a, OutExn (NotInLGR c))
             end
      end
  | OpAddRange f l cm rf tg w nw sk =>
      if N.ltb f l then
        if negb sk && existsb (detected f l) (a_ranges a)
        then (a, OutExn (RangeAlreadyExists f l))
        else
          match a_insert_range (a_map a)
                  (fun c => mkChar [c] (KRange f l) cm rf tg w nw []) (nrange f l) with
          | (m, OutUnit) => (mkA m ((f, l) :: a_ranges a), OutUnit)
          | (m, x) => (mkA m (a_ranges a), x)
          end
      else (a, OutExn AssertionError)
  | OpDelRange f l =>
      if N.ltb f l then
        if memb pair_eqb (f, l) (a_ranges a)
        then
          match a_delete_range (a_map a) (nrange f l) with
          | (m, OutUnit) => (mkA m (remove1 pair_eqb (f, l) (a_ranges a)), OutUnit)
          | (m, x) => (mkA m (a_ranges a), x)
          end
        else (a, OutExn (NotInLGR [f]))
      else (a, OutExn AssertionError)
  | OpAddVariant c v =>
      match c with
      | [] => (a, OutExn AssertionError)
      | _ => match a_map a c with
             | None => (a, OutExn (NotInLGR c))
             | Some ch =>
                 match char_add_variant ch v with
                 | Ok ch' => (mkA (upd (a_map a) c (Some ch')) (a_ranges a), OutUnit)
                 | Raise e => (a, OutExn e)
                 end
             end
      end
  | OpDelVariant c vcp w nw =>
      match c with
      | [] => (a, OutExn AssertionError)
      | _ => match a_map a c with
             | None => (a, OutExn (NotInLGR c))
             | Some ch =>
                 match char_del_variant ch vcp w nw with
                 | Ok (ch', b) => (mkA (upd (a_map a) c (Some ch')) (a_ranges a), OutBool b)
                 | Raise e => (a, OutExn e)
                 end
             end
      end
  | OpDelReference ref =>
      (mkA (fun c => option_map (char_del_ref ref) (a_map a c)) (a_ranges a), OutUnit)
  | OpDelTag t =>
      (mkA (fun c => option_map (char_del_tag t) (a_map a c)) (a_ranges a), OutUnit)
  end.

Fixpoint a_run (a : astate) (ops : list rep_op) : astate * list rep_out :=
  match ops with
  | [] => (a, [])
  | o :: ops' =>
      let '(a1, x) := a_step a o in
      let '(a2, xs) := a_run a1 ops' in (a2, x :: xs)
  end.

(** Lookup through the public API: [get_char]. *)
Definition lookup (r : repertoire) (c : cps) : option char :=
  match rep_get_char r c with Ok ch => Some ch | Raise _ => None end.

(** States reachable from the empty repertoire by any history. *)
Definition reachable (r : repertoire) : Prop := exists ops, r = fst (rep_run empty_rep ops).

(** The identity of a variant inside an entry. *)
Definition vkey (v : variant) : cps * option string * option string :=
  (v_cp v, v_when v, v_not_when v).

(** Order of iteration: by first code point, then by length. *)
Definition first_cp (c : char) : N := hd 0 (ch_cp c).
Definition iter_order (a b : char) : Prop :=
  first_cp a < first_cp b \/
  (first_cp a = first_cp b /\ (length (ch_cp a) <= length (ch_cp b))%nat).

(** Every member of the range an entry belongs to is (still) present as a
    member of that same range. *)
Definition ranges_intact (r : repertoire) : Prop :=
  forall c f l, In c (all_chars r) -> ch_kind c = KRange f l ->
  forall x, f <= x <= l -> exists d, lookup r [x] = Some d /\ ch_kind d = KRange f l.
