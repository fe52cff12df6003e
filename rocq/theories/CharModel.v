(** Model of lgr/char.py: variants, characters and the repertoire.
    No proofs here.

    Simplifications (all definitions): objects are values, so the sharing of
    one [references]/[tags] Python list between the members of a range
    (char.py:590-593) or with the caller is not represented; log messages are
    dropped; [__repr__]/[__str__] are not modelled. *)
From Verif Require Import Base.

(** char.py:45-68 Variant.__init__ ([ref=None] becomes []). *)
Record variant : Type := mkVariant {
  v_cp : cps;
  v_type : option string;
  v_when : option string;
  v_not_when : option string;
  v_comment : option string;
  v_refs : list string
}.

(** char.py:78-81 Variant.__eq__ (and __hash__ 83-87, consistent with it). *)
Definition variant_eqb (a b : variant) : bool :=
  cps_eqb (v_cp a) (v_cp b) && ostring_eqb (v_when a) (v_when b)
  && ostring_eqb (v_not_when a) (v_not_when b).

(** Run-time class of a character: Char (char.py:278-287), CharSequence
    (328-334), RangeChar with its first/last code points (290-305). *)
Inductive kind : Type :=
| KChar
| KSeq
| KRange (first last : N).

(** char.py:95-106 CharBase.__init__. [ch_variants] is [_variants]. *)
Record char : Type := mkChar {
  ch_cp : cps;
  ch_kind : kind;
  ch_comment : option string;
  ch_refs : list string;
  ch_tags : list string;
  ch_when : option string;
  ch_not_when : option string;
  ch_variants : dict cps (list variant)
}.

Definition is_range (c : char) : bool :=
  match ch_kind c with KRange _ _ => true | _ => false end.
Definition is_seq (c : char) : bool :=
  match ch_kind c with KSeq => true | _ => false end.

Definition set_variants (c : char) (vs : dict cps (list variant)) : char :=
  mkChar (ch_cp c) (ch_kind c) (ch_comment c) (ch_refs c) (ch_tags c)
         (ch_when c) (ch_not_when c) vs.

(** char.py:253-275 CharBase.from_cp_or_sequence on a list/tuple; the empty
    sequence raises IndexError (cp_or_sequence[0]). *)
Definition from_cp_or_sequence (c : cps) (comment : option string)
  (refs tags : list string) (when_ not_when : option string) : res char :=
  match c with
  | [] => Raise IndexError
  | [x] => Ok (mkChar [x] KChar comment refs tags when_ not_when [])
  | _ => Ok (mkChar c KSeq comment refs tags when_ not_when [])
  end.

(** char.py:301-305 RangeChar.__init__. *)
Definition mk_range_char (c first last : N) (comment : option string)
  (refs tags : list string) (when_ not_when : option string) : char :=
  mkChar [c] (KRange first last) comment refs tags when_ not_when [].

(** char.py:108-109, 20-42 as_index: first code point. *)
Definition as_index (c : cps) : option N :=
  match c with [] => None | x :: _ => Some x end.

(** char.py:111-148 CharBase.add_variant, 307-312 RangeChar.add_variant. *)
Definition char_add_variant (c : char) (v : variant) : res char :=
  if is_range c then Raise (LGRFormatException RANGE_NO_CHILD)
  else match v_cp v with
  | [] => Raise AssertionError
  | _ =>
    match dget cps_eqb (v_cp v) (ch_variants c) with
    | Some l =>
        if memb variant_eqb v l
        then Raise (VariantAlreadyExists (ch_cp c) (v_cp v))
        else Ok (set_variants c (dset cps_eqb (v_cp v) (l ++ [v]) (ch_variants c)))
    | None => Ok (set_variants c (dset cps_eqb (v_cp v) [v] (ch_variants c)))
    end
  end.

(** char.py:150-179 CharBase.del_variant, 314-319 RangeChar.del_variant. *)
Definition char_del_variant (c : char) (vcp : cps) (when_ not_when : option string)
  : res (char * bool) :=
  if is_range c then Raise (LGRFormatException RANGE_NO_CHILD)
  else match vcp with
  | [] => Raise AssertionError
  | _ =>
    let var := mkVariant vcp None when_ not_when None [] in
    match dget cps_eqb vcp (ch_variants c) with
    | Some l =>
        if memb variant_eqb var l
        then match remove1 variant_eqb var l with
             | [] => Ok (set_variants c (ddel cps_eqb vcp (ch_variants c)), true)
             | l' => Ok (set_variants c (dset cps_eqb vcp l' (ch_variants c)), true)
             end
        else Ok (c, false)
    | None => Ok (c, false)
    end
  end.

(** char.py:199-205 has_variant. *)
Definition has_variant (c : char) : bool :=
  match ch_variants c with [] => false | _ => true end.

(** char.py:207-223 is_prefix_of. *)
Definition is_prefix_of (c : char) (label : cps) : bool := prefixb (ch_cp c) label.

(** char.py:225-235 get_variants: sorted keys, insertion order inside a key. *)
Definition get_variants (c : char) : list variant :=
  flat_map (fun k => match dget cps_eqb k (ch_variants c) with
                     | Some l => l | None => [] end)
           (isort cps_leb (dkeys (ch_variants c))).

(** char.py:237-243 get_variant (None when there is no such key). *)
Definition get_variant (c : char) (vcp : cps) : option (list variant) :=
  dget cps_eqb vcp (ch_variants c).

(** char.py:245-251 get_reflexive_variants. *)
Definition get_reflexive_variants (c : char) : list variant :=
  match dget cps_eqb (ch_cp c) (ch_variants c) with Some l => l | None => [] end.

(** char.py:337-351 Repertoire: [ranges] and [_chardict]. *)
Record repertoire : Type := mkRep {
  rep_ranges : list (N * N);
  rep_chars : dict N (list char)
}.
Definition empty_rep : repertoire := mkRep [] [].

Definition set_chars (r : repertoire) (d : dict N (list char)) : repertoire :=
  mkRep (rep_ranges r) d.
Definition set_ranges (r : repertoire) (l : list (N * N)) : repertoire :=
  mkRep l (rep_chars r).

Definition bucket (r : repertoire) (k : N) : list char :=
  match dget N.eqb k (rep_chars r) with Some l => l | None => [] end.

(** CharBase.__eq__ (181-182): characters are compared by code points. *)
Definition char_eqb (a b : char) : bool := cps_eqb (ch_cp a) (ch_cp b).

(** char.py:365-390 __contains__ for a sequence ([] raises IndexError in
    _to_index). *)
Definition rep_contains (r : repertoire) (c : cps) : res bool :=
  match c with
  | [] => Raise IndexError
  | x :: _ =>
      match dget N.eqb x (rep_chars r) with
      | None => Ok false
      | Some l => Ok (memb cps_eqb c (map ch_cp l))
      end
  end.

(** char.py:408-439 __iter__. [last] is [last_cp]. *)
Fixpoint iter_bucket (last : option N) (l : list char) : option N * list char :=
  match l with
  | [] => (last, [])
  | c :: l' =>
      match ch_kind c with
      | KRange _ lst =>
          match last with
          | Some _ => iter_bucket last l'
          | None => let '(la, out) := iter_bucket (Some lst) l' in (la, c :: out)
          end
      | _ => let '(la, out) := iter_bucket last l' in (la, c :: out)
      end
  end.

Definition len_leb (a b : char) : bool := Nat.leb (length (ch_cp a)) (length (ch_cp b)).
Definition len_geb (a b : char) : bool := Nat.leb (length (ch_cp b)) (length (ch_cp a)).

Fixpoint iter_keys (r : repertoire) (last : option N) (ks : list N) : list char :=
  match ks with
  | [] => []
  | k :: ks' =>
      let last := match last with
                  | Some lc => if N.ltb lc k then None else Some lc
                  | None => None end in
      let '(last', out) := iter_bucket last (isort len_leb (bucket r k)) in
      out ++ iter_keys r last' ks'
  end.

Definition rep_iter (r : repertoire) : list char :=
  iter_keys r None (isort N.leb (dkeys (rep_chars r))).

(** char.py:441-462 all_repertoire. *)
Definition all_repertoire (r : repertoire) (include_sequences include_ranges : bool)
  : list char :=
  filter (fun c => negb (is_seq c && negb include_sequences)
                   && negb (is_range c && negb include_ranges))
         (flat_map snd (rep_chars r)).

(** Shorthand for [all_repertoire()] with its default arguments. *)
Definition all_chars (r : repertoire) : list char := flat_map snd (rep_chars r).

(** char.py:464-481 __len__. *)
Definition rep_len (r : repertoire) : nat :=
  fold_right plus 0%nat (map (fun kv : N * list char => length (snd kv)) (rep_chars r)).

(** char.py:881-905 _add_char (the character is never empty here). *)
Definition add_char_ (r : repertoire) (c : char) : repertoire * res unit :=
  match as_index (ch_cp c) with
  | None => (r, Raise IndexError)
  | Some k =>
      match dget N.eqb k (rep_chars r) with
      | Some l =>
          if memb char_eqb c l then (r, Raise (CharAlreadyExists (ch_cp c)))
          else (set_chars r (dset N.eqb k (l ++ [c]) (rep_chars r)), Ok tt)
      | None => (set_chars r (dset N.eqb k [c] (rep_chars r)), Ok tt)
      end
  end.

(** char.py:907-932 _del_char: True if it was present. *)
Definition del_char_ (r : repertoire) (c : cps) : repertoire * bool :=
  match as_index c with
  | None => (r, false)
  | Some k =>
      match dget N.eqb k (rep_chars r) with
      | Some l =>
          if memb cps_eqb c (map ch_cp l)
          then
            let l' := remove1 (fun x y : char => char_eqb x y)
                              (mkChar c KChar None [] [] None None []) l in
            match l' with
            | [] => (set_chars r (ddel N.eqb k (rep_chars r)), true)
            | _ => (set_chars r (dset N.eqb k l' (rep_chars r)), true)
            end
          else (r, false)
      | None => (r, false)
      end
  end.

(** char.py:483-520 add_char. *)
Definition rep_add_char (r : repertoire) (c : cps) (comment : option string)
  (refs tags : list string) (when_ not_when : option string)
  : repertoire * res char :=
  match c with
  | [] => (r, Raise AssertionError)
  | _ =>
      match from_cp_or_sequence c comment refs tags when_ not_when with
      | Raise e => (r, Raise e)
      | Ok ch =>
          match add_char_ r ch with
          | (r', Ok _) => (r', Ok ch)
          | (r', Raise e) => (r', Raise e)
          end
      end
  end.

(** char.py:522-547 del_char. *)
Definition rep_del_char (r : repertoire) (c : cps) : repertoire * res unit :=
  match c with
  | [] => (r, Raise AssertionError)
  | _ =>
      match del_char_ r c with
      | (r', true) => (r', Ok tt)
      | (r', false) => (r', Raise (NotInLGR c))
      end
  end.

(** Tuple order on ranges, used by self.ranges.sort() (char.py:870). *)
Definition pair_leb (a b : N * N) : bool :=
  if N.eqb (fst a) (fst b) then N.leb (snd a) (snd b) else N.ltb (fst a) (fst b).
Definition pair_eqb (a b : N * N) : bool :=
  N.eqb (fst a) (fst b) && N.eqb (snd a) (snd b).

(** char.py:858-879 _check_range_overlap, the loop. *)
Fixpoint overlap_loop (first last : N) (l : list (N * N)) : bool :=
  match l with
  | [] => false
  | (rf, rl) :: l' =>
      if N.ltb rl first || N.ltb last rf then overlap_loop first last l'
      else if N.leb rf first || N.leb last rl then true
      else overlap_loop first last l'
  end.

(** char.py:858-879: sorts [ranges] in place, then scans. *)
Definition check_range_overlap (r : repertoire) (first last : N) : repertoire * bool :=
  let rs := isort pair_leb (rep_ranges r) in
  (set_ranges r rs, overlap_loop first last rs).

(** char.py:590-595: insertion loop of add_range; stops at the first
    exception leaving what was already inserted. *)
Fixpoint add_range_loop (r : repertoire) (mk : N -> char) (l : list N)
  : repertoire * res unit :=
  match l with
  | [] => (r, Ok tt)
  | c :: l' =>
      match add_char_ r (mk c) with
      | (r', Ok _) => add_range_loop r' mk l'
      | (r', Raise e) => (r', Raise e)
      end
  end.

(** char.py:549-598 add_range. *)
Definition rep_add_range (r : repertoire) (first last : N) (comment : option string)
  (refs tags : list string) (when_ not_when : option string) (skip_check : bool)
  : repertoire * res unit :=
  if N.ltb first last then
    let '(r1, ovl) := if skip_check then (r, false) else check_range_overlap r first last in
    if ovl then (r1, Raise (RangeAlreadyExists first last))
    else
      match add_range_loop r1
              (fun c => mk_range_char c first last comment refs tags when_ not_when)
              (nrange first last) with
      | (r2, Ok _) => (set_ranges r2 (rep_ranges r2 ++ [(first, last)]), Ok tt)
      | (r2, Raise e) => (r2, Raise e)
      end
  else (r, Raise AssertionError).

(** char.py:628-637: deletion loop of del_range. *)
Fixpoint del_range_loop (r : repertoire) (l : list N) : repertoire * res unit :=
  match l with
  | [] => (r, Ok tt)
  | c :: l' =>
      match del_char_ r [c] with
      | (r', true) => del_range_loop r' l'
      | (r', false) => (r', Raise (NotInLGR [c]))
      end
  end.

(** char.py:600-640 del_range (NotInLGR(first_cp) carries a single int, shown
    here as a one-element sequence). *)
Definition rep_del_range (r : repertoire) (first last : N) : repertoire * res unit :=
  if N.ltb first last then
    if memb pair_eqb (first, last) (rep_ranges r) then
      match del_range_loop r (nrange first last) with
      | (r', Ok _) => (set_ranges r' (remove1 pair_eqb (first, last) (rep_ranges r')), Ok tt)
      | (r', Raise e) => (r', Raise e)
      end
    else (r, Raise (NotInLGR [first]))
  else (r, Raise AssertionError).

(** char.py:642-673 get_char. *)
Definition rep_get_char (r : repertoire) (c : cps) : res char :=
  match c with
  | [] => Raise AssertionError
  | x :: _ =>
      match dget N.eqb x (rep_chars r) with
      | None => Raise (NotInLGR c)
      | Some l =>
          match find (fun ch => cps_eqb c (ch_cp ch)) l with
          | Some ch => Ok ch
          | None => Raise (NotInLGR c)
          end
      end
  end.

(** In-place mutation of the object returned by get_char: the first entry of
    the bucket with these code points is replaced. *)
Fixpoint update_first (c : cps) (new : char) (l : list char) : list char :=
  match l with
  | [] => []
  | x :: l' => if cps_eqb c (ch_cp x) then new :: l' else x :: update_first c new l'
  end.
Definition rep_put (r : repertoire) (c : cps) (new : char) : repertoire :=
  match c with
  | [] => r
  | x :: _ =>
      match dget N.eqb x (rep_chars r) with
      | None => r
      | Some l => set_chars r (dset N.eqb x (update_first c new l) (rep_chars r))
      end
  end.

(** char.py:675-707 add_variant. *)
Definition rep_add_variant (r : repertoire) (c : cps) (v : variant) : repertoire * res unit :=
  match rep_get_char r c with
  | Raise e => (r, Raise e)
  | Ok ch =>
      match char_add_variant ch v with
      | Raise e => (r, Raise e)
      | Ok ch' => (rep_put r c ch', Ok tt)
      end
  end.

(** char.py:709-734 del_variant. *)
Definition rep_del_variant (r : repertoire) (c vcp : cps) (when_ not_when : option string)
  : repertoire * res bool :=
  match rep_get_char r c with
  | Raise e => (r, Raise e)
  | Ok ch =>
      match char_del_variant ch vcp when_ not_when with
      | Raise e => (r, Raise e)
      | Ok (ch', b) => (rep_put r c ch', Ok b)
      end
  end.

(** char.py:736-752 get_variants. *)
Definition rep_get_variants (r : repertoire) (c : cps) : res (list variant) :=
  bind (rep_get_char r c) (fun ch => Ok (get_variants ch)).

(** char.py:754-771 get_variant. *)
Definition rep_get_variant (r : repertoire) (c vcp : cps) : res (option (list variant)) :=
  bind (rep_get_char r c) (fun ch => Ok (get_variant ch vcp)).

(** char.py:814-827 del_reference (first occurrence in each list). *)
Definition variant_del_ref (ref : string) (v : variant) : variant :=
  mkVariant (v_cp v) (v_type v) (v_when v) (v_not_when v) (v_comment v)
            (remove1 String.eqb ref (v_refs v)).
Definition char_del_ref (ref : string) (c : char) : char :=
  mkChar (ch_cp c) (ch_kind c) (ch_comment c) (remove1 String.eqb ref (ch_refs c))
         (ch_tags c) (ch_when c) (ch_not_when c)
         (map (fun kv : cps * list variant => (fst kv, map (variant_del_ref ref) (snd kv)))
              (ch_variants c)).
Definition map_chars (f : char -> char) (r : repertoire) : repertoire :=
  set_chars r (map (fun kv : N * list char => (fst kv, map f (snd kv))) (rep_chars r)).
Definition rep_del_reference (r : repertoire) (ref : string) : repertoire :=
  map_chars (char_del_ref ref) r.

(** char.py:829-839 del_tag (first occurrence only). *)
Definition char_del_tag (tag : string) (c : char) : char :=
  mkChar (ch_cp c) (ch_kind c) (ch_comment c) (ch_refs c)
         (remove1 String.eqb tag (ch_tags c)) (ch_when c) (ch_not_when c) (ch_variants c).
Definition rep_del_tag (r : repertoire) (tag : string) : repertoire :=
  map_chars (char_del_tag tag) r.

(** char.py:841-856 get_chars_from_prefix. *)
Definition get_chars_from_prefix (r : repertoire) (k : N) (only_variants : bool)
  : res (list char) :=
  match dget N.eqb k (rep_chars r) with
  | None => Raise (NotInLGR [k])
  | Some l =>
      let it := if only_variants then filter has_variant l else l in
      Ok (isort len_geb it)
  end.

(** char.py:785-801 dfs.  [visited] is a set, kept as a list without
    repetitions.  [fuel] bounds the recursion depth (Python's own recursion
    limit is not modelled); [None] = out of fuel. *)
Fixpoint dfs_loop (rec : char -> list cps -> option (list cps)) (r : repertoire)
  (force : bool) (vs : list variant) (visited : list cps) : option (list cps) :=
  match vs with
  | [] => Some visited
  | v :: vs' =>
      if memb cps_eqb (v_cp v) visited then dfs_loop rec r force vs' visited
      else match rep_get_char r (v_cp v) with
           | Raise _ => (* NotInLGR; a fresh CharBase has no variants *)
               dfs_loop rec r force vs' (if force then v_cp v :: visited else visited)
           | Ok ch => match rec ch visited with
                      | None => None
                      | Some visited' => dfs_loop rec r force vs' visited'
                      end
           end
  end.

Fixpoint dfs (fuel : nat) (r : repertoire) (force : bool) (c : char) (visited : list cps)
  : option (list cps) :=
  match fuel with
  | O => None
  | S fuel' =>
      dfs_loop (dfs fuel' r force) r force (get_variants c)
               (if memb cps_eqb (ch_cp c) visited then visited else ch_cp c :: visited)
  end.

Fixpoint list_leb (a b : list cps) : bool :=
  match a, b with
  | [], _ => true
  | _ :: _, [] => false
  | x :: a', y :: b' => if cps_eqb x y then list_leb a' b' else cps_leb x y
  end.
Fixpoint list_eqb (a b : list cps) : bool :=
  match a, b with
  | [], [] => true
  | x :: a', y :: b' => cps_eqb x y && list_eqb a' b'
  | _, _ => false
  end.

(** char.py:803-812: one set per character, sorted, deduplicated (a Python
    set) and sorted again.  The sort key there is (lowest element, set) where
    the lowest element is the head of the sorted set, so sorting by the set
    itself gives the same order. *)
Fixpoint all_some {A} (l : list (option A)) : option (list A) :=
  match l with
  | [] => Some []
  | Some x :: r => match all_some r with Some xs => Some (x :: xs) | None => None end
  | None :: _ => None
  end.
Definition get_variant_sets (r : repertoire) (force : bool) : option (list (list cps)) :=
  let fuel := S (rep_len r) in
  let chars := flat_map (bucket r) (isort N.leb (dkeys (rep_chars r))) in
  match all_some (map (fun c => dfs fuel r force c []) chars) with
  | None => None
  | Some sets =>
      Some (isort list_leb
              (dedup list_eqb
                 (filter (fun s => Nat.ltb 1 (length s)) (map (isort cps_leb) sets))))
  end.
