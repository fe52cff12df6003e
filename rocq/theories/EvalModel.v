(** Model of the label algorithms of lgr/core.py with the rules of the LGR
    itself: a rule may be missing, may fail, and leaves its pattern cached.  No
    proofs here.

    LabelModel has the same algorithms with a total oracle for rules; what does
    not involve rules is taken from there.  Simplifications: as in LabelModel,
    but for the oracle; the LGR has a Unicode database; the variants of a label
    are all generated before the first is judged (the code generates them one by
    one, so with an error in the generation it would have yielded some labels
    before). *)
From Verif Require Import Base CharModel ActionModel LgrModel LabelModel ClassModel RuleModel.
Open Scope string_scope.
Open Scope list_scope.

(** Computations that may raise and that use the caches of rules. *)
Definition ev (A : Type) : Type := cache -> cache * res A.
Definition ret {A} (a : A) : ev A := fun k => (k, Ok a).
Definition fail {A} (e : exn) : ev A := fun k => (k, Raise e).
Definition ebind {A B} (m : ev A) (f : A -> ev B) : ev B :=
  fun k => let '(k1, x) := m k in match x with Ok a => f a k1 | Raise e => (k1, Raise e) end.
Fixpoint filter_e {A} (p : A -> ev bool) (l : list A) : ev (list A) :=
  match l with
  | [] => ret []
  | x :: l' => ebind (p x) (fun b => ebind (filter_e p l') (fun ys => ret (if b then x :: ys else ys)))
  end.
Fixpoint flat_map_e {A B} (f : A -> ev (list B)) (l : list A) : ev (list B) :=
  match l with
  | [] => ret []
  | x :: l' => ebind (f x) (fun a => ebind (flat_map_e f l') (fun b => ret (a ++ b)))
  end.

Section Eval.
  Variable u : ClassModel.unidb.
  Variable look : table.
  Variable rules : rtable.
  Variable fuel : nat.

  (** rules_lookup[name].matches(label, ..., anchor, index): core.py:1929-1935,
      1940-1946, action.py:84-88, 93-97. *)
  Definition ask (n : string) (label : cps) (ctx : option (cps * nat)) : ev bool :=
    fun k =>
    match dget String.eqb n rules with
    | None => (k, Raise (KeyErrorStr n))
    | Some r => rule_matches u look rules fuel r label (option_map fst ctx) (match ctx with Some (_, i) => i | None => 0%nat end) k
    end.
  Definition ask_not (n : string) (label : cps) (ctx : option (cps * nat)) : ev bool :=
    ebind (ask n label ctx) (fun b => ret (negb b)).

  (** core.py:1915-1950 _test_context_rules *)
  Definition context_e (when_ not_when : option string) (c label : cps) (i : nat) : ev bool :=
    match when_ with
    | Some w => ask w label (Some (c, i))
    | None => match not_when with
              | Some n => ask_not n label (Some (c, i))
              | None => ret true
              end
    end.
  Definition char_e (ch : char) (label : cps) (i : nat) : ev bool := context_e (ch_when ch) (ch_not_when ch) (ch_cp ch) label i.
  Definition var_e (v : variant) (label : cps) (i : nat) : ev bool := context_e (v_when v) (v_not_when v) (v_cp v) label i.

  (** action.py:56-138 Action.apply and core.py:1877-1913 _apply_actions *)
  Definition apply_e (a : action) (label : cps) (ds : dispset) (only : bool) : ev (option string) :=
    ebind (match a_match a with
           | Some n => ask n label None
           | None => match a_not_match a with Some n => ask_not n label None | None => ret true end
           end) (fun b => ret (if (b && act_variant a ds only)%bool then Some (a_disp a) else None)).
  Fixpoint actions_from_e (l : list action) (idx : Z) (label : cps) (ds : dispset) (only : bool) : ev (option string * Z) :=
    match l with
    | [] => ret (None, (-1)%Z)
    | a :: l' => ebind (apply_e a label ds only) (fun o =>
        match o with
        | Some d => ret (Some d, idx)
        | None => actions_from_e l' (idx + 1)%Z label ds only
        end)
    end.
  Definition actions_e (acts : list action) (label : cps) (ds : dispset) (only : bool) : ev (option string * Z) :=
    actions_from_e (effective_actions acts) 0%Z label ds only.

  Variable r : repertoire.

  (** core.py:1514-1590 _test_preliminary_eligibility; the names of the rules that
      failed are joined for the log (line 1582), which None does not survive. *)
  Fixpoint try_e (label rest : cps) (i : nat) (l : list char) (pending : list (option string))
    : ev (option char * list (option string)) :=
    match l with
    | [] => ret (None, pending)
    | ch :: l' =>
        if (is_seq ch && negb (is_prefix_of ch rest))%bool then try_e label rest i l' pending
        else ebind (char_e ch label i) (fun b =>
          if negb b then try_e label rest i l' (pending ++ [failed_rule ch]) else ret (Some ch, pending))
    end.
  Fixpoint prelim_e (f : nat) (label rest : cps) (i : nat) : ev prelim :=
    match rest with
    | [] => ret (mkPrelim true [] [] [])
    | x :: rest' =>
        match f with
        | O => fail OutOfFuel
        | S f =>
            let bad reason := ebind (prelim_e f label rest' (S i)) (fun p =>
              ret (mkPrelim false (pr_parts p) ((x, reason) :: pr_invalid p) (pr_chars p))) in
            match get_chars_from_prefix r x false with
            | Raise _ => bad None
            | Ok l =>
                ebind (try_e label rest i l []) (fun t =>
                match t with
                | (Some ch, _) =>
                    ebind (prelim_e f label (skipn (ch_len ch) rest) (i + ch_len ch)) (fun p =>
                    ret (mkPrelim (pr_ok p) (ch_cp ch ++ pr_parts p) (pr_invalid p) (ch :: pr_chars p)))
                | (None, []) => bad None
                | (None, pending) =>
                    if existsb (fun o : option string => match o with None => true | Some _ => false end) pending then fail TypeError
                    else bad (Some pending)
                end)
            end
        end
    end.
  Definition preliminary_e (label : cps) : ev prelim := prelim_e (length label) label label 0.

  (** core.py:1592-1672 _test_label_disposition *)
  Fixpoint refl_at_e (label rest : cps) (i : nat) (apply_refl : bool) (l : list char) : ev (list dispset) :=
    match l with
    | [] => ret []
    | ch :: l' =>
        if (is_seq ch && negb (is_prefix_of ch rest))%bool then refl_at_e label rest i apply_refl l'
        else ebind (char_e ch label i) (fun b =>
          if b
          then ebind (if apply_refl then filter_e (fun v => var_e v label i) (get_reflexive_variants ch) else ret []) (fun vs =>
               ebind (refl_at_e label rest i apply_refl l') (fun ls => ret (map v_type vs :: ls)))
          else refl_at_e label rest i apply_refl l')
    end.
  Fixpoint refl_e (label rest : cps) (i : nat) (apply_refl : bool) : ev (dispset * bool) :=
    match rest with
    | [] => ret ([], true)
    | x :: rest' =>
        ebind (match get_chars_from_prefix r x false with Raise _ => ret [] | Ok l => refl_at_e label rest i apply_refl l end) (fun here =>
        ebind (refl_e label rest' (S i) apply_refl) (fun p =>
        ret (List.concat here ++ fst p,
             (forallb (fun ts => negb (match ts with [] => true | _ => false end)) here && snd p)%bool)))
    end.
  Variable acts : list action.
  Definition disposition_e (label : cps) (apply_refl : bool) : ev (option string * Z) :=
    ebind (refl_e label label 0 apply_refl) (fun p =>
    actions_e acts label (fst p) (match fst p with [] => false | _ => snd p end)).

  (** core.py:1023-1090 test_label_eligible *)
  Definition eligible_e (label : cps) (is_variant : bool) : ev elig :=
    match label with
    | [] => fail (LGRApiInvalidParameter "label")
    | _ =>
        ebind (preliminary_e label) (fun p =>
        if negb (pr_ok p)
        then ret (mkElig false (pr_parts p) (pr_invalid p) (Some "invalid") (-1)%Z (pr_chars p))
        else ebind (disposition_e label (negb is_variant)) (fun d =>
             if ostring_eqb (fst d) (Some "invalid")
             then ret (mkElig false [] [] (fst d) (snd d) (pr_chars p))
             else ret (mkElig true label [] (fst d) (snd d) (pr_chars p))))
    end.

  (** core.py:1387-1427 _generate_label_partitions *)
  Fixpoint partitions_e (f : nat) (prefix label : cps) : ev (list (list char)) :=
    match label with
    | [] => fail IndexError
    | x :: _ =>
        match f with
        | O => fail OutOfFuel
        | S f =>
            match get_chars_from_prefix r x false with
            | Raise _ => ret []
            | Ok l =>
                flat_map_e (fun ch =>
                  if negb (is_prefix_of ch label) then ret []
                  else ebind (char_e ch (prefix ++ label) (length prefix)) (fun b =>
                    if negb b then ret []
                    else if Nat.ltb (ch_len ch) (length label)
                    then ebind (partitions_e f (prefix ++ ch_cp ch) (skipn (ch_len ch) label)) (fun ps => ret (map (fun p => ch :: p) ps))
                    else ret [[ch]])) l
            end
        end
    end.
  (** core.py:1349-1384 _generate_index_label_on_partition *)
  Fixpoint index_on_e (prefix : cps) (chars : list char) : ev cps :=
    match chars with
    | [] => ret []
    | ch :: chars' =>
        let suffix := flat_map ch_cp chars' in
        ebind (filter_e (fun v => var_e v (prefix ++ v_cp v ++ suffix) (length prefix)) (get_variants ch)) (fun vs =>
        ebind (index_on_e (prefix ++ ch_cp ch) chars') (fun rest => ret (min_cps (ch_cp ch) (map v_cp vs) ++ rest)))
    end.
  Fixpoint map_e {A B} (f : A -> ev B) (l : list A) : ev (list B) :=
    match l with
    | [] => ret []
    | x :: l' => ebind (f x) (fun a => ebind (map_e f l') (fun b => ret (a :: b)))
    end.
  (** core.py:1284-1347 generate_index_label; line 1343 drops any exception of
      the recursive call. *)
  Definition index_once_e (label : cps) : ev cps :=
    match label with
    | [] => ret []
    | _ =>
        ebind (preliminary_e label) (fun p =>
        if negb (pr_ok p)
        then match pr_invalid p with (c, _) :: _ => fail (NotInLGR [c]) | [] => fail IndexError end
        else ebind (partitions_e (length label) [] label) (fun ps =>
             ebind (map_e (index_on_e []) ps) (fun l =>
             match l with [] => fail ValueError | i :: is => ret (min_cps i is) end)))
    end.
  Fixpoint index_e (max_rec : nat) (as_tuple : bool) (label : cps) : ev cps :=
    ebind (index_once_e label) (fun i =>
    match label, max_rec with
    | [], _ => ret []
    | _, O => ret i
    | _, S n =>
        if (as_tuple && cps_eqb i label)%bool then ret i
        else fun k => let '(k1, x) := index_e n true i k in (k1, Ok (match x with Ok i' => i' | Raise _ => i end))
    end).

  Variable script : N -> string.

  (** core.py:1674-1708 _get_prefix_list and 1768-1792 *)
  Definition same_prefix_e (lp label : cps) : ev (list char) :=
    ebind (match label with
           | [] => ret []
           | x :: _ =>
               match get_chars_from_prefix r x true with
               | Raise _ => ret []
               | Ok l =>
                   ebind (filter_e (fun ch => if is_prefix_of ch label
                                              then char_e ch (lp ++ ch_cp ch ++ skipn (ch_len ch) label) (length lp)
                                              else ret false) l) (fun l' =>
                   ret (match l' with
                        | [] => match find (fun ch => is_prefix_of ch label) (all_from r label) with Some ch => [ch] | None => [] end
                        | _ => l'
                        end))
               end
           end) (fun sp =>
    ret (sp ++ flat_map (fun s => filter (fun ch => (Nat.ltb (ch_len ch) (ch_len s) && is_prefix_of ch label)%bool) (all_from r label))
                        (filter is_seq sp))).
  (** core.py:1794-1853 *)
  Definition var_perm_e (lp rest : cps) (first_call : bool) (flt : option sfilter) (v : variant) : ev (list perm) :=
    let keep f := ebind (var_e v (lp ++ v_cp v ++ rest) (length lp)) (fun b =>
                  ret (if b then [(PVar v, match v_type v with None => [] | Some t => [Some t] end, true, f)] else [])) in
    match flt with
    | None => keep None
    | Some f =>
        if (first_call && cp_in_other script f (v_cp v))%bool
        then keep (Some (other_filter (match v_cp v with x :: _ => script x | [] => "" end)))
        else if negb (cp_in_base script f (v_cp v)) then ret [] else keep (Some f)
    end.
  Definition char_perms_e (lp label : cps) (first_call : bool) (flt : option sfilter) (ch : char) : ev (list perm) :=
    ebind (flat_map_e (var_perm_e lp (skipn (ch_len ch) label) first_call flt) (get_variants ch)) (fun vs =>
    ret (if (negb (existsb (is_refl_perm ch) vs) &&
             match flt with None => true | Some f => first_call || cp_in_base script f (ch_cp ch) end)%bool
         then (PChar ch, [], false, flt) :: vs
         else vs)).
  (** core.py:1710-1875 _generate_label_variants *)
  Fixpoint gen_e (fuel : nat) (lp label : cps) (has_var first_call : bool) (flt : option sfilter) : ev (list vlabel) :=
    match label with
    | [] => ret []
    | _ =>
        match fuel with
        | O => fail OutOfFuel
        | S f =>
            ebind (same_prefix_e lp label) (flat_map_e (fun ch =>
              ebind (char_perms_e lp label first_call flt ch) (fun perms =>
              if Nat.ltb (ch_len ch) (length label)
              then flat_map_e (fun p : perm =>
                     let '(pc, ds, isv, flt') := p in
                     ebind (gen_e f (lp ++ piece_cp pc) (skipn (ch_len ch) label) (isv || has_var) false flt') (fun l =>
                     ret (map (fun w => mkVL (piece_cp pc ++ vl_cp w) (vl_disp w ++ ds) (isv && vl_only w) (pc :: vl_chars w)) l))) perms
              else if (has_var || has_variant ch)%bool
              then ret (map (fun p : perm => let '(pc, ds, isv, _) := p in mkVL (piece_cp pc) ds isv [pc]) perms)
              else ret [])))
        end
    end.
  Definition variants_e (label : cps) (hide : bool) : ev (list vlabel) :=
    gen_e (length label) [] label false true
      (if hide then match label with [] => None | _ => Some (mixed_filter r script label) end else None).

  (** core.py:1163-1181 *)
  Definition judge_e (label : cps) (w : vlabel) : ev listed :=
    ebind (eligible_e (vl_cp w) (negb (cps_eqb (vl_cp w) label))) (fun e =>
    if negb (el_ok e)
    then ret (mkListed (vl_cp w) (Some "invalid") (Some (el_invalid e)) (el_idx e) (vl_disp w))
    else ebind (actions_e acts (vl_cp w) (vl_disp w) (vl_only w)) (fun d =>
         ret (mkListed (vl_cp w) (match fst d with None => Some "allocatable" | _ => fst d end)
                       (Some (el_invalid e)) (snd d) (vl_disp w)))).
  (** core.py:1144-1192 *)
  Fixpoint listing_e (label : cps) (include_invalid gen_chars : bool) (with_labels : list cps)
    (l : list vlabel) (handled : list cps) (orig : option listed) (k : cache) : cache * (list listed * res (option listed)) :=
    match l with
    | [] => (k, ([], Ok orig))
    | w :: l' =>
        if (negb gen_chars && memb cps_eqb (vl_cp w) handled)%bool
        then listing_e label include_invalid gen_chars with_labels l' handled orig k
        else if negb (match with_labels with [] => true | _ => memb cps_eqb (vl_cp w) with_labels end)
        then listing_e label include_invalid gen_chars with_labels l' handled orig k
        else
          let '(k1, y) := judge_e label w k in
          match y with
          | Raise e => (k1, ([], Raise e))
          | Ok x =>
              let handled' := vl_cp w :: handled in
              if (negb (ostring_eqb (ls_disp x) (Some "invalid")) || include_invalid)%bool
              then if cps_eqb (vl_cp w) label
                   then listing_e label include_invalid gen_chars with_labels l' handled' (Some x) k1
                   else let '(k2, (ys, o)) := listing_e label include_invalid gen_chars with_labels l' handled' orig k1 in
                        (k2, (x :: ys, o))
              else listing_e label include_invalid gen_chars with_labels l' handled' orig k1
          end
    end.
  (** core.py:1092-1211 compute_label_disposition *)
  Definition compute_e (label : cps) (include_invalid hide gen_chars : bool) (with_labels : list cps) (k : cache)
    : cache * (list listed * res unit) :=
    if Nat.ltb 63 (length label) then (k, ([], Raise (LGRApiInvalidParameter "label")))
    else
      let '(k1, x) := variants_e label hide k in
      match x with
      | Raise e => (k1, ([], Raise e))
      | Ok vs =>
          let '(k2, (ys, o)) := listing_e label include_invalid gen_chars with_labels vs [] None k1 in
          match o with
          | Raise e => (k2, (ys, Raise e))
          | Ok (Some o) => (k2, (ys ++ [o], Ok tt))
          | Ok None =>
              let '(k3, y) := eligible_e label false k2 in
              match y with
              | Raise e => (k3, (ys, Raise e))
              | Ok e => (k3, (ys ++ [mkListed label (el_disp e) None (el_idx e) []], Ok tt))
              end
          end
      end.
  (** core.py:1246-1282 estimate_variant_number *)
  Definition estimate_e (label : cps) (hide : bool) : ev nat :=
    ebind (preliminary_e label) (fun p =>
    let chars := pr_chars p in
    ret (if hide
         then (product (map (fun ch => S (length (filter (fun v => cp_in_base script (mixed_filter r script label) (v_cp v))
                                                         (vars_excl_reflexive ch)))) chars)
               + fold_right plus 0%nat
                   (map (fun s => product (map (fun ch => length (filter (fun v => cp_in_scripts script (v_cp v) [s])
                                                                         (vars_excl_reflexive ch))) chars))
                        (other_scripts r script label)))%nat
         else product (map (fun ch => S (length (vars_excl_reflexive ch))) chars))).
  (** core.py:1213-1244 compute_label_disposition_summary: all labels first, then a
      Counter of their dispositions, in order of first appearance. *)
  Fixpoint counter (l : list (option string)) (d : dict (option string) nat) : dict (option string) nat :=
    match l with
    | [] => d
    | x :: l' => counter l' (dset ostring_eqb x (S (match dget ostring_eqb x d with Some n => n | None => 0%nat end)) d)
    end.
  Definition summary_e (label : cps) (include_invalid hide : bool) : ev (dict (option string) nat * list listed) :=
    fun k => let '(k', (ys, o)) := compute_e label include_invalid hide false [] k in
             (k', match o with Ok _ => Ok (counter (map ls_disp ys) [], ys) | Raise e => Raise e end).
End Eval.
