(** Model of lgr/populate/__init__.py.  No proofs here.

    The loops run over generators that look at the LGR while it is modified:
    the sorted list of first code points is taken once, the entries of each
    first code point when it is reached (char.py:408-439), and an entry is seen
    in its current state.  The variants of an entry (char.py:225-235) are taken
    when its visit starts; visiting an entry never alters variants it already
    has, so this is what the generator yields.  Log messages dropped. *)
From Verif Require Import Base CharModel LgrModel Rfc7940Model ValidateModel.
Open Scope string_scope.
Open Scope list_scope.

(** for b in a.get_variants(): f(a, b) *)
Fixpoint each_variant (f : lgr -> cps -> variant -> lgr * res unit) (g : lgr) (a : cps) (l : list variant)
  : lgr * res unit :=
  match l with
  | [] => (g, Ok tt)
  | b :: l' => match f g a b with
               | (g', Ok _) => each_variant f g' a l'
               | (g', Raise e) => (g', Raise e)
               end
  end.
(** The entries of one first code point. *)
Fixpoint each_char (f : lgr -> cps -> variant -> lgr * res unit) (g : lgr) (l : list char) : lgr * res unit :=
  match l with
  | [] => (g, Ok tt)
  | a :: l' =>
      match rep_get_char (lg_rep g) (ch_cp a) with
      | Raise e => (g, Raise e)
      | Ok cur =>
          match each_variant f g (ch_cp a) (get_variants cur) with
          | (g', Ok _) => each_char f g' l'
          | (g', Raise e) => (g', Raise e)
          end
      end
  end.
Fixpoint each_key (f : lgr -> cps -> variant -> lgr * res unit) (g : lgr) (last : option N) (ks : list N)
  : lgr * res unit :=
  match ks with
  | [] => (g, Ok tt)
  | k :: ks' =>
      let last := match last with
                  | Some lc => if N.ltb lc k then None else Some lc
                  | None => None end in
      let '(last', out) := iter_bucket last (isort len_leb (bucket (lg_rep g) k)) in
      match each_char f g out with
      | (g', Ok _) => each_key f g' last' ks'
      | (g', Raise e) => (g', Raise e)
      end
  end.
(** for a in lgr.repertoire: for b in a.get_variants(): f(a, b) *)
Definition each_mapping (f : lgr -> cps -> variant -> lgr * res unit) (g : lgr) : lgr * res unit :=
  each_key f g None (isort N.leb (dkeys (rep_chars (lg_rep g)))).

(** Two calls in a row. *)
Definition andthen (x : lgr * res unit) (f : lgr -> lgr * res unit) : lgr * res unit :=
  match x with
  | (g, Ok _) => f g
  | (g, Raise e) => (g, Raise e)
  end.

(** The calls made: add_variant(c, v, variant_type, when, not_when, comment, ref). *)
Definition put_variant (g : lgr) (c v : cps) (type_ when_ not_when comment : option string) (refs : list string)
  : lgr * res unit :=
  lgr_add_variant g c v type_ when_ not_when comment refs None false false.
Definition blocked : option string := Some "blocked".

(** populate/__init__.py:26-37: targets outside the LGR. *)
Definition add_missing (g : lgr) (a : cps) (b : variant) : lgr * res unit :=
  match lgr_get_variants g (v_cp b) with
  | Ok _ => (g, Ok tt)
  | Raise (NotInLGR _) =>
      andthen (lgr_add_cp g (v_cp b) None [] [] None None None false false) (fun g1 =>
      put_variant g1 (v_cp b) a blocked None None None [])
  | Raise e => (g, Raise e)
  end.

(** populate/__init__.py:78-84: the last rule set among the reverse variants. *)
Definition last_rule (get : variant -> option string) (l : list variant) : option string :=
  fold_left (fun acc r => if truthy (get r) then get r else acc) l None.

(** populate/__init__.py:99-107 and 118-126: replace a reverse variant by one
    with a rule. *)
Definition replace_variant (g : lgr) (c : cps) (r : variant) (when_ not_when : option string) : lgr * res unit :=
  let '(g1, x) := lgr_del_variant g c (v_cp r) None None in
  match x with
  | Raise e => (g1, Raise e)
  | Ok _ => put_variant g1 c (v_cp r) (v_type r) when_ not_when (v_comment r) (v_refs r)
  end.

(** populate/__init__.py:54-126 _add_symmetry, one mapping. *)
Definition symmetry_when (g : lgr) (a : cps) (b : variant) (reverse : list variant) : lgr * res unit :=
  let w := last_rule v_when reverse in
  let nw := last_rule v_not_when reverse in
  if truthy (v_when b) && negb (truthy w)
  then if truthy nw then put_variant g (v_cp b) a blocked (v_when b) None None []
       else match reverse with
            | [] => (g, Raise IndexError)
            | r :: _ => replace_variant g (v_cp b) r (v_when b) None
            end
  else (g, Ok tt).
Definition symmetry_not_when (g : lgr) (a : cps) (b : variant) (reverse : list variant) : lgr * res unit :=
  let w := last_rule v_when reverse in
  let nw := last_rule v_not_when reverse in
  if truthy (v_not_when b) && negb (truthy nw)
  then if truthy w then put_variant g (v_cp b) a blocked None (v_not_when b) None []
       else match reverse with
            | [] => (g, Raise IndexError)
            | r :: _ => replace_variant g (v_cp b) r None (v_not_when b)
            end
  else (g, Ok tt).
Definition symmetry_step (g : lgr) (a : cps) (b : variant) : lgr * res unit :=
  match lgr_get_variants g (v_cp b) with
  | Raise e => (g, Raise e)
  | Ok vs =>
      let reverse := filter (fun v => cps_eqb a (v_cp v)) vs in
      match reverse with
      | [] => put_variant g (v_cp b) a blocked (v_when b) (v_not_when b) None []
      | _ => andthen (symmetry_when g a b reverse) (fun g1 => symmetry_not_when g1 a b reverse)
      end
  end.
Definition add_symmetry (g : lgr) : lgr * res unit := each_mapping symmetry_step g.

(** populate/__init__.py:129-138 _add_transitivity, one mapping. *)
Fixpoint transitivity_targets (g : lgr) (a : cps) (cs : list variant) : lgr * res unit :=
  match cs with
  | [] => (g, Ok tt)
  | c :: cs' =>
      match rep_get_char (lg_rep g) a with
      | Raise e => (g, Raise e)
      | Ok cur =>
          if memb cps_eqb (v_cp c) (map v_cp (get_variants cur)) then transitivity_targets g a cs'
          else andthen (put_variant g a (v_cp c) blocked None None None []) (fun g1 => transitivity_targets g1 a cs')
      end
  end.
Definition transitivity_step (g : lgr) (a : cps) (b : variant) : lgr * res unit :=
  match lgr_get_variants g (v_cp b) with
  | Raise e => (g, Raise e)
  | Ok vs => transitivity_targets g a (filter (fun v => negb (cps_eqb (v_cp v) a)) vs)
  end.
Definition add_transitivity (g : lgr) : lgr * res unit := each_mapping transitivity_step g.

(** The success reported by a check. *)
Definition passed {I} (x : list report * res (bool * list I)) : res bool := bind (snd x) (fun y => Ok (fst y)).

(** populate/__init__.py:40-45: the while loop; [or] is lazy. *)
Definition balanced (g : lgr) : res bool :=
  bind (passed (check_symmetry g true)) (fun s => if s then passed (check_transitivity g) else Ok false).
Fixpoint balance (fuel : nat) (g : lgr) : lgr * res unit :=
  match balanced g with
  | Raise e => (g, Raise e)
  | Ok true => (g, Ok tt)
  | Ok false =>
      match fuel with
      | O => (g, Raise OutOfFuel)
      | S f => andthen (add_symmetry g) (fun g1 => andthen (add_transitivity g1) (balance f))
      end
  end.

(** populate/__init__.py:17-51 populate_lgr (checks also record RFC 7940
    results, which is left out).  The fuel is the number of pairs of entries,
    see [populate_terminates]. *)
Definition populate (g : lgr) : lgr * res unit :=
  andthen (each_mapping add_missing g) (fun g1 =>
  andthen (balance (rep_len (lg_rep g1) * rep_len (lg_rep g1)) g1) (fun g2 =>
  match passed (check_symmetry g2 false) with
  | Raise e => (g2, Raise e)
  | Ok true => (g2, Ok tt)
  | Ok false => add_symmetry g2
  end)).
