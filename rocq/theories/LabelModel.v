(** Model of the label algorithms of lgr/core.py and of
    lgr/mixed_scripts_variant_filter.py.  No proofs here.

    Simplifications (all definitions): rules are the total oracle [rm] (see
    ActionModel.v); logs are dropped; a Python set of variant types is a list,
    only meaningful up to order and repetition (which nothing observes:
    actions_set_semantics); generators are the lists of what they yield; a
    bound on recursion depth is [fuel], [None] meaning it was exhausted. *)
From Verif Require Import Base CharModel ActionModel LgrModel.
Open Scope string_scope.
Open Scope list_scope.

(** core.py:1915-1950 _test_context_rules. *)
Definition test_context (rm : rule_oracle) (when_ not_when : option string) (c label : cps) (i : nat) : bool :=
  match when_ with
  | Some w => rm w label (Some (c, i))
  | None => match not_when with
            | Some n => negb (rm n label (Some (c, i)))
            | None => true
            end
  end.
Definition ctx_char (rm : rule_oracle) (ch : char) (label : cps) (i : nat) : bool :=
  test_context rm (ch_when ch) (ch_not_when ch) (ch_cp ch) label i.
Definition ctx_var (rm : rule_oracle) (v : variant) (label : cps) (i : nat) : bool :=
  test_context rm (v_when v) (v_not_when v) (v_cp v) label i.

Definition ch_len (ch : char) : nat := length (ch_cp ch).

(** Concatenation of lists obtained from possibly exhausted computations. *)
Fixpoint flat_mapM {A B} (f : A -> option (list B)) (l : list A) : option (list B) :=
  match l with
  | [] => Some []
  | x :: l' => match f x, flat_mapM f l' with
               | Some a, Some b => Some (a ++ b)
               | _, _ => None
               end
  end.

Section Label.
  Variable rm : rule_oracle.
  Variable r : repertoire.

  (** ** Eligibility *)

  (** core.py:1559-1583: the entries starting at position [i] ([rest] is
      label[i:]), longest first; result: the first acceptable one, or the rules
      that failed. *)
  Definition failed_rule (ch : char) : option string :=
    if truthy (ch_when ch) then ch_when ch else ch_not_when ch.
  Fixpoint prelim_try (label rest : cps) (i : nat) (l : list char) (pending : list (option string))
    : option char * list (option string) :=
    match l with
    | [] => (None, pending)
    | ch :: l' =>
        if is_seq ch && negb (is_prefix_of ch rest) then prelim_try label rest i l' pending
        else if negb (ctx_char rm ch label i)
        then prelim_try label rest i l' (pending ++ [failed_rule ch])
        else (Some ch, pending)
    end.

  Record prelim : Type := mkPrelim {
    pr_ok : bool;
    pr_parts : cps;
    pr_invalid : list (N * option (list (option string)));
    pr_chars : list char
  }.

  (** core.py:1514-1590 _test_preliminary_eligibility. *)
  Fixpoint prelim_loop (fuel : nat) (label rest : cps) (i : nat) : option prelim :=
    match rest with
    | [] => Some (mkPrelim true [] [] [])
    | x :: rest' =>
        match fuel with
        | O => None
        | S f =>
            let bad reason :=
              match prelim_loop f label rest' (S i) with
              | Some p => Some (mkPrelim false (pr_parts p) ((x, reason) :: pr_invalid p) (pr_chars p))
              | None => None
              end in
            match get_chars_from_prefix r x false with
            | Raise _ => bad None
            | Ok l =>
                match prelim_try label rest i l [] with
                | (Some ch, _) =>
                    match prelim_loop f label (skipn (ch_len ch) rest) (i + ch_len ch) with
                    | Some p => Some (mkPrelim (pr_ok p) (ch_cp ch ++ pr_parts p) (pr_invalid p) (ch :: pr_chars p))
                    | None => None
                    end
                | (None, []) => bad None
                | (None, pending) => bad (Some pending)
                end
            end
        end
    end.
  Definition preliminary (label : cps) : option prelim := prelim_loop (length label) label label 0.

  (** ** Disposition of a label by itself *)

  (** core.py:1624-1659, one entry at position [i]: types of its valid
      reflexive variants and whether there is one. *)
  Definition refl_types (label : cps) (i : nat) (ch : char) : list (option string) :=
    map v_type (filter (fun v => ctx_var rm v label i) (get_reflexive_variants ch)).
  Definition entries_at (label rest : cps) (i : nat) : list char :=
    match rest with
    | [] => []
    | x :: _ =>
        match get_chars_from_prefix r x false with
        | Raise _ => []
        | Ok l => filter (fun ch => (negb (is_seq ch) || is_prefix_of ch rest) && ctx_char rm ch label i) l
        end
    end.
  Fixpoint refl_collect (label rest : cps) (i : nat) (apply_refl : bool) : dispset * bool :=
    match rest with
    | [] => ([], true)
    | _ :: rest' =>
        let '(ds, only) := refl_collect label rest' (S i) apply_refl in
        let here := map (fun ch => if apply_refl then refl_types label i ch else []) (entries_at label rest i) in
        (concat here ++ ds,
         forallb (fun ts => negb (match ts with [] => true | _ => false end)) here && only)
    end.

  Variable acts : list action.

  (** core.py:1592-1672 _test_label_disposition. *)
  Definition label_disposition (label : cps) (apply_refl : bool) : option string * Z :=
    let '(ds, only) := refl_collect label label 0 apply_refl in
    apply_actions rm acts label ds (match ds with [] => false | _ => only end).

  Record elig : Type := mkElig {
    el_ok : bool;
    el_parts : cps;
    el_invalid : list (N * option (list (option string)));
    el_disp : option string;
    el_idx : Z;
    el_chars : list char
  }.

  (** core.py:1023-1090 test_label_eligible. *)
  Definition test_label_eligible (label : cps) (is_variant : bool) : res elig :=
    match label with
    | [] => Raise (LGRApiInvalidParameter "label")
    | _ =>
        match preliminary label with
        | None => Raise OutOfFuel
        | Some p =>
            if negb (pr_ok p)
            then Ok (mkElig false (pr_parts p) (pr_invalid p) (Some "invalid") (-1)%Z (pr_chars p))
            else
              let '(d, idx) := label_disposition label (negb is_variant) in
              if ostring_eqb d (Some "invalid")
              then Ok (mkElig false [] [] d idx (pr_chars p))
              else Ok (mkElig true label [] d idx (pr_chars p))
        end
    end.

  (** ** Partitions and index labels *)

  (** core.py:1387-1427 _generate_label_partitions. *)
  Fixpoint partitions (fuel : nat) (prefix label : cps) : option (list (list char)) :=
    match label with
    | [] => None
    | x :: _ =>
        match fuel with
        | O => None
        | S f =>
            match get_chars_from_prefix r x false with
            | Raise _ => Some []
            | Ok l =>
                flat_mapM (fun ch =>
                  if negb (is_prefix_of ch label) then Some []
                  else if negb (ctx_char rm ch (prefix ++ label) (length prefix)) then Some []
                  else if Nat.ltb (ch_len ch) (length label)
                  then match partitions f (prefix ++ ch_cp ch) (skipn (ch_len ch) label) with
                       | None => None
                       | Some ps => Some (map (fun p => ch :: p) ps)
                       end
                  else Some [[ch]]) l
            end
        end
    end.
  Definition label_partitions (label : cps) : option (list (list char)) := partitions (length label) [] label.

  (** min(...) of a non-empty list: the first smallest. *)
  Fixpoint min_cps (m : cps) (l : list cps) : cps :=
    match l with
    | [] => m
    | x :: l' => min_cps (if cps_leb m x then m else x) l'
    end.

  (** core.py:1349-1384 _generate_index_label_on_partition; [suffix] is what
      follows the current entry. *)
  Definition index_choices (prefix suffix : cps) (ch : char) : list cps :=
    map v_cp (filter (fun v => ctx_var rm v (prefix ++ v_cp v ++ suffix) (length prefix)) (get_variants ch)).
  Fixpoint index_on (prefix : cps) (chars : list char) : cps :=
    match chars with
    | [] => []
    | ch :: chars' =>
        min_cps (ch_cp ch) (index_choices prefix (flat_map ch_cp chars') ch)
        ++ index_on (prefix ++ ch_cp ch) chars'
    end.

  (** core.py:1284-1347 generate_index_label.  The comparison
      [index_label != label] of line 1334 is between a tuple and the argument,
      a list or a tuple; [as_tuple] tells which.  Recursive calls get a tuple. *)
  Definition index_once (label : cps) : res cps :=
    match label with
    | [] => Ok []
    | _ =>
        match preliminary label with
        | None => Raise OutOfFuel
        | Some p =>
            if negb (pr_ok p)
            then match pr_invalid p with
                 | (c, _) :: _ => Raise (NotInLGR [c])
                 | [] => Raise IndexError
                 end
            else match label_partitions label with
                 | None => Raise OutOfFuel
                 | Some ps =>
                     match map (index_on []) ps with
                     | [] => Raise ValueError
                     | i :: is => Ok (min_cps i is)
                     end
                 end
        end
    end.
  Fixpoint index_label (max_rec : nat) (as_tuple : bool) (label : cps) : res cps :=
    match index_once label with
    | Raise e => Raise e
    | Ok i =>
        match label, max_rec with
        | [], _ => Ok []
        | _, O => Ok i
        | _, S n =>
            if as_tuple && cps_eqb i label then Ok i
            else match index_label n true i with
                 | Ok i' => Ok i'
                 | Raise _ => Ok i
                 end
        end
    end.

  (** ** Mixed script filter (lgr/mixed_scripts_variant_filter.py) *)

  Definition smem (s : string) (l : list string) : bool := memb String.eqb s l.
  Definition sunion (a b : list string) : list string := dedup String.eqb (a ++ b).

  (** 9-27 get_permitted_scripts. *)
  Definition get_permitted_scripts (base : list string) : list string :=
    let p1 := if smem "Katakana" base || smem "Hiragana" base
              then sunion base ["Han"; "Latin"; "Katakana"; "Hiragana"]
              else if smem "Hangul" base then sunion base ["Latin"] else base in
    if smem "Han" base then sunion p1 ["Latin"] else p1.

  (** 30-58: [sf_other = None] is the class BaseMixedScriptsVariantFilter. *)
  Record sfilter : Type := mkFilter { sf_base : list string; sf_other : option (list string) }.
  Variable script : N -> string.
  Definition cp_in_scripts (c : cps) (scripts : list string) : bool :=
    forallb (fun x => smem (script x) scripts) c.
  Definition cp_in_base (f : sfilter) (c : cps) : bool := cp_in_scripts c (sf_base f).
  Definition cp_in_other (f : sfilter) (c : cps) : bool :=
    match sf_other f with None => false | Some s => cp_in_scripts c s end.
  Definition ignored_scripts : list string := ["Common"; "Inherited"].
  Definition sminus (a b : list string) : list string := filter (fun s => negb (smem s b)) a.

  (** 61-67 _get_base_scripts. *)
  Definition base_scripts (label : cps) : list string :=
    get_permitted_scripts (dedup String.eqb (sminus (map script label) ignored_scripts)).

  (** 69-72 get_filter_for_other_script. *)
  Definition other_filter (s : string) : sfilter := mkFilter (get_permitted_scripts [s]) None.

  (** 74-110 _get_scripts_for_variants; [cur] is current_label, which is not
      shortened when a code point starts no entry (line 90-92). *)
  Definition scripts_for_char (cur : cps) (l : list char) : list string :=
    dedup String.eqb
      (sminus (flat_map (fun ch => if is_prefix_of ch cur
                                   then flat_map (fun v => map script (v_cp v)) (get_variants ch)
                                   else []) l) ignored_scripts).
  Fixpoint scripts_loop (label cur : cps) (acc : option (list string)) : option (list string) :=
    match label with
    | [] => acc
    | x :: label' =>
        match get_chars_from_prefix r x true with
        | Raise _ => scripts_loop label' cur acc
        | Ok l =>
            let s := scripts_for_char cur l in
            scripts_loop label' (tl cur)
              (Some (match acc with None => s | Some a => filter (fun y => smem y s) a end))
        end
    end.
  Definition other_scripts (label : cps) : list string :=
    match scripts_loop label label None with
    | None => []
    | Some s => sminus s (base_scripts label)
    end.
  Definition mixed_filter (label : cps) : sfilter :=
    mkFilter (base_scripts label) (Some (other_scripts label)).

  (** ** Variants of a label *)

  (** An element of the list of chars reported with a variant label: a Char
      or a Variant object. *)
  Inductive piece : Type := PChar (ch : char) | PVar (v : variant).
  Definition piece_cp (p : piece) : cps := match p with PChar ch => ch_cp ch | PVar v => v_cp v end.
  Record vlabel : Type := mkVL {
    vl_cp : cps; vl_disp : dispset; vl_only : bool; vl_chars : list piece
  }.

  (** core.py:1674-1708 _get_prefix_list. *)
  Definition prefix_list (lp label : cps) : res (list char) :=
    match label with
    | [] => Raise IndexError
    | x :: _ =>
        bind (get_chars_from_prefix r x true) (fun l =>
        Ok (filter (fun ch => is_prefix_of ch label &&
                       ctx_char rm ch (lp ++ ch_cp ch ++ skipn (ch_len ch) label) (length lp)) l))
    end.

  (** core.py:1768-1792: the entries the generation starts from. *)
  Definition all_from (label : cps) : list char :=
    match label with
    | [] => []
    | x :: _ => match get_chars_from_prefix r x false with Ok l => l | Raise _ => [] end
    end.
  Definition same_prefix (lp label : cps) : list char :=
    let sp := match prefix_list lp label with
              | Raise _ => []
              | Ok [] => match find (fun ch => is_prefix_of ch label) (all_from label) with
                         | Some ch => [ch]
                         | None => []
                         end
              | Ok l => l
              end in
    sp ++ flat_map (fun s => filter (fun ch => Nat.ltb (ch_len ch) (ch_len s) && is_prefix_of ch label)
                                    (all_from label))
                   (filter is_seq sp).

  (** core.py:1794-1853: the replacements of one entry, with the filter used
      for the rest of the label. *)
  Definition perm := (piece * dispset * bool * option sfilter)%type.
  Definition var_perm (lp rest : cps) (first_call : bool) (flt : option sfilter) (v : variant) : list perm :=
    let keep f := if ctx_var rm v (lp ++ v_cp v ++ rest) (length lp)
                  then [(PVar v, match v_type v with None => [] | Some t => [Some t] end, true, f)]
                  else [] in
    match flt with
    | None => keep None
    | Some f =>
        if first_call && cp_in_other f (v_cp v)
        then keep (Some (other_filter (match v_cp v with x :: _ => script x | [] => "" end)))
        else if negb (cp_in_base f (v_cp v)) then [] else keep (Some f)
    end.
  Definition is_refl_perm (ch : char) (p : perm) : bool :=
    let '(pc, _, _, _) := p in cps_eqb (piece_cp pc) (ch_cp ch).
  Definition char_perms (lp label : cps) (first_call : bool) (flt : option sfilter) (ch : char) : list perm :=
    let vs := flat_map (var_perm lp (skipn (ch_len ch) label) first_call flt) (get_variants ch) in
    if negb (existsb (is_refl_perm ch) vs) &&
       match flt with None => true | Some f => first_call || cp_in_base f (ch_cp ch) end
    then (PChar ch, [], false, flt) :: vs
    else vs.

  (** core.py:1710-1875 _generate_label_variants. *)
  Fixpoint gen_variants (fuel : nat) (lp label : cps) (has_var first_call : bool) (flt : option sfilter)
    : option (list vlabel) :=
    match label with
    | [] => Some []
    | _ =>
        match fuel with
        | O => None
        | S f =>
            flat_mapM (fun ch =>
              let perms := char_perms lp label first_call flt ch in
              if Nat.ltb (ch_len ch) (length label)
              then flat_mapM (fun p : perm =>
                     let '(pc, ds, isv, flt') := p in
                     match gen_variants f (lp ++ piece_cp pc) (skipn (ch_len ch) label) (isv || has_var) false flt' with
                     | None => None
                     | Some l => Some (map (fun w => mkVL (piece_cp pc ++ vl_cp w) (vl_disp w ++ ds)
                                                          (isv && vl_only w) (pc :: vl_chars w)) l)
                     end) perms
              else if has_var || has_variant ch
              then Some (map (fun p : perm => let '(pc, ds, isv, _) := p in mkVL (piece_cp pc) ds isv [pc]) perms)
              else Some []) (same_prefix lp label)
        end
    end.
  Definition label_variants (label : cps) (hide : bool) : option (list vlabel) :=
    gen_variants (length label) [] label false true
      (if hide then match label with [] => None | _ => Some (mixed_filter label) end else None).

  (** ** Listing of a label and its variants *)

  Record listed : Type := mkListed {
    ls_cp : cps; ls_disp : option string; ls_invalid : option (list (N * option (list (option string))));
    ls_idx : Z; ls_types : dispset
  }.
  (** core.py:1163-1181: disposition of one generated label. *)
  Definition judge (label : cps) (w : vlabel) : res listed :=
    bind (test_label_eligible (vl_cp w) (negb (cps_eqb (vl_cp w) label))) (fun e =>
    if negb (el_ok e)
    then Ok (mkListed (vl_cp w) (Some "invalid") (Some (el_invalid e)) (el_idx e) (vl_disp w))
    else let '(d, idx) := apply_actions rm acts (vl_cp w) (vl_disp w) (vl_only w) in
         Ok (mkListed (vl_cp w) (match d with None => Some "allocatable" | _ => d end)
                      (Some (el_invalid e)) idx (vl_disp w))).

  (** core.py:1144-1192: [gen_chars] disables the suppression of repeated
      labels.  Result: what is yielded, and the saved original label. *)
  Fixpoint listing_loop (label : cps) (include_invalid gen_chars : bool) (with_labels : list cps)
    (l : list vlabel) (handled : list cps) (orig : option listed) : list listed * res (option listed) :=
    match l with
    | [] => ([], Ok orig)
    | w :: l' =>
        if negb gen_chars && memb cps_eqb (vl_cp w) handled
        then listing_loop label include_invalid gen_chars with_labels l' handled orig
        else if negb (match with_labels with [] => true | _ => memb cps_eqb (vl_cp w) with_labels end)
        then listing_loop label include_invalid gen_chars with_labels l' handled orig
        else
          match judge label w with
          | Raise e => ([], Raise e)
          | Ok x =>
              let handled' := vl_cp w :: handled in
              if negb (ostring_eqb (ls_disp x) (Some "invalid")) || include_invalid
              then if cps_eqb (vl_cp w) label
                   then listing_loop label include_invalid gen_chars with_labels l' handled' (Some x)
                   else let '(ys, o) := listing_loop label include_invalid gen_chars with_labels l' handled' orig in
                        (x :: ys, o)
              else listing_loop label include_invalid gen_chars with_labels l' handled' orig
          end
    end.

  (** core.py:1092-1211 compute_label_disposition; PROTOCOL_LABEL_MAX_LENGTH is
      63 (core.py).  The items yielded, and how the generator ends. *)
  Definition compute_label_disposition (has_unidb : bool) (label : cps) (include_invalid hide gen_chars : bool)
    (with_labels : list cps) : list listed * res unit :=
    if negb has_unidb then ([], Raise LGRApiException)
    else if Nat.ltb 63 (length label) then ([], Raise (LGRApiInvalidParameter "label"))
    else
      match label_variants label hide with
      | None => ([], Raise OutOfFuel)
      | Some vs =>
          match listing_loop label include_invalid gen_chars with_labels vs [] None with
          | (ys, Raise e) => (ys, Raise e)
          | (ys, Ok (Some o)) => (ys ++ [o], Ok tt)
          | (ys, Ok None) =>
              match test_label_eligible label false with
              | Raise e => (ys, Raise e)
              | Ok e => (ys ++ [mkListed label (el_disp e) None (el_idx e) []], Ok tt)
              end
          end
      end.

  (** ** Estimate (core.py:1246-1282) *)
  Definition vars_excl_reflexive (ch : char) : list variant :=
    filter (fun v => negb (cps_eqb (v_cp v) (ch_cp ch))) (get_variants ch).
  Definition product (l : list nat) : nat := fold_right Nat.mul 1%nat l.
  Definition estimate_variant_number (label : cps) (hide : bool) : option nat :=
    match preliminary label with
    | None => None
    | Some p =>
        let chars := pr_chars p in
        Some (if hide
              then (product (map (fun ch => S (length (filter (fun v => cp_in_base (mixed_filter label) (v_cp v))
                                                              (vars_excl_reflexive ch)))) chars)
                    + fold_right plus 0%nat
                        (map (fun s => product (map (fun ch => length (filter (fun v => cp_in_scripts (v_cp v) [s])
                                                                              (vars_excl_reflexive ch))) chars))
                             (other_scripts label)))%nat
              else product (map (fun ch => S (length (vars_excl_reflexive ch))) chars))
    end.
End Label.
