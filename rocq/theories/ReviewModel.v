(** Model of lgr/tools/idn_review: the results, the summary, and the reports on
    the repertoire, classes, actions and variants.  No proofs here.

    Not modelled: glyphs and names of code points (taken from the Unicode
    database) and the header.  The language tag report is in LangModel, the
    general rules and the reports without reference in GeneralModel.  [order]
    stands for the order in which the elements of a set come. *)
From Coq Require Import Ascii.
From Verif Require Import Base CharModel ActionModel LgrModel CompareModel.
Open Scope string_scope.
Open Scope list_scope.

(** utils.py:13-18 IdnReviewResult. *)
Inductive review : Type := RMatch | RSubset | RNote | RManual | RReview.
(** Their values. *)
Definition level (r : review) : nat :=
  match r with RMatch => 0 | RSubset => 1 | RNote => 2 | RManual => 3 | RReview => 4 end%nat.
(** The members by their names. *)
Definition members : list (string * review) :=
  [("MATCH", RMatch); ("SUBSET", RSubset); ("NOTE", RNote); ("MANUAL_CHECK", RManual); ("REVIEW", RReview)].
(** [s.replace(a, b)] on characters. *)
Fixpoint replace_char (a b : ascii) (s : string) : string :=
  match s with
  | EmptyString => EmptyString
  | String c s' => String (if Ascii.eqb c a then b else c) (replace_char a b s')
  end.
(** The name of a member in the class. *)
Definition member_name (r : review) : string :=
  match r with RMatch => "MATCH" | RSubset => "SUBSET" | RNote => "NOTE" | RManual => "MANUAL_CHECK" | RReview => "REVIEW" end.
(** utils.py:20-22 name. *)
Definition result_name (r : review) : string := replace_char "_" " " (member_name r).
(** [IdnReviewResult[s.replace(' ', '_')]], as in summary.py:23-24. *)
Definition result_of (s : string) : res review :=
  match dget String.eqb (replace_char " " "_" s) members with Some r => Ok r | None => Raise (KeyErrorStr s) end.

(** ** Summary *)
(** summary.py:21-26: [result], [remarks] and [result_remarks] after the pairs
    of result and remark.  The two dicts always have the same keys. *)
Definition add_remark (d : dict string (string * nat)) (result remark : string) : dict string (string * nat) :=
  match dget String.eqb remark d with
  | Some (_, n) => dset String.eqb remark (result, S n) d
  | None => dset String.eqb remark (result, 1%nat) d
  end.
Fixpoint handle (overall : string) (d : dict string (string * nat)) (l : list (string * string)) : res (string * dict string (string * nat)) :=
  match l with
  | [] => Ok (overall, d)
  | (result, remark) :: l' =>
      bind (if String.eqb overall "" then Ok overall
            else bind (result_of result) (fun r => bind (result_of overall) (fun o => Ok (if Nat.ltb (level o) (level r) then result else overall))))
           (fun overall' => handle overall' (add_remark d result remark) l')
  end.
(** summary.py:15-35 handle_report; a row is the remark, its result and its
    count.  With several pairs of keys a report gives several pairs. *)
Definition handle_report (l : list (string * string)) : res (string * dict string (string * nat)) := handle (result_name RMatch) [] l.

(** ** Repertoire *)
Definition is_script_tag (t : string) : bool := String.prefix "sc:" t.
Definition newline : string := String (ascii_of_nat 10) EmptyString.
Section Order.
  Variable order : list string -> list string.

  (** repertoire.py:36-46. *)
  Fixpoint compare_tags (idn ref tags : list string) (acc : option review * string) : option review * string :=
    match tags with
    | [] => acc
    | t :: tags' =>
        if negb (memb String.eqb t idn) then (Some RReview, "Tags do not match")
        else if (negb (memb String.eqb t ref) && negb (is_some (fst acc)))%bool
        then compare_tags idn ref tags' (Some RNote, "Tags not required in Reference LGR")
        else compare_tags idn ref tags' acc
    end.
  (** repertoire.py:48-58. *)
  Definition rule_name (when_ not_when : option string) : option string :=
    match when_, not_when with
    | Some w, _ => if truthy when_ then Some ("when-" ++ w)%string
                   else match not_when with Some n => if truthy not_when then Some ("not-when-" ++ n)%string else None | None => None end
    | None, Some n => if truthy not_when then Some ("not-when-" ++ n)%string else None
    | None, None => None
    end.
  (** repertoire.py:26-78 compare_char. *)
  Definition compare_both (idn ref : char) : review * string :=
    let tags := filter (fun t => negb (is_script_tag t)) (set_union String.eqb (set_diff String.eqb (ch_tags idn) (ch_tags ref)) (set_diff String.eqb (ch_tags ref) (ch_tags idn))) in
    let (result, remark) := compare_tags (ch_tags idn) (ch_tags ref) (order tags) (None, "") in
    let i := rule_name (ch_when idn) (ch_not_when idn) in
    let r := rule_name (ch_when ref) (ch_not_when ref) in
    if ostring_eqb i r then
      match result with None => (RMatch, "Matches code point (including tags, context rule)") | Some x => (x, remark) end
    else
      let remark1 := if String.eqb remark "" then remark else (remark ++ newline)%string in
      match result with
      | Some RReview => (RReview, (remark1 ++ "Rules do not match")%string)
      | _ => if (is_some i && negb (is_some r))%bool then (RNote, (remark1 ++ "Rules not required in Reference LGR")%string)
             else (RReview, "Rules do not match")
      end.
  Definition compare_char (idn ref : option char) : review * string :=
    match idn, ref with
    | None, _ => (RSubset, "Match as a subset of repertoire")
    | Some _, None => (RManual, "The code point only exists in the IDN Table but not in the reference LGR")
    | Some i, Some r => compare_both i r
    end.

  (** One line: code point, in the table, in the reference, result, remark
      (80-91). *)
  Record cp_line : Type := mkCpLine { cl_cp : cps; cl_idn : bool; cl_ref : bool; cl_result : review; cl_remark : string }.
  Definition by_cp (r : repertoire) : dict cps char := fold_left (fun d c => dset cps_eqb (ch_cp c) c d) (all_repertoire r true true) [].
  (** repertoire.py:113-123, the reports. *)
  Definition repertoire_report (idn ref : repertoire) : list cp_line :=
    map (fun c =>
           let i := dget cps_eqb c (by_cp idn) in
           let r := dget cps_eqb c (by_cp ref) in
           let (result, remark) := compare_char i r in
           mkCpLine c (is_some i) (is_some r) result remark)
        (isort cps_leb (set_union cps_eqb (dkeys (by_cp idn)) (dkeys (by_cp ref)))).
End Order.
(** repertoire.py:94-110 get_idn_cp_in_ref_seq: a code point of the table, and a
    sequence of the reference. *)
Definition in_rep (r : repertoire) (c : cps) : bool := match rep_contains r c with Ok b => b | Raise _ => false end.
Definition cp_in_sequences (idn ref : repertoire) : list (N * cps) :=
  flat_map (fun ch => if Nat.ltb 1 (List.length (ch_cp ch))
                      then flat_map (fun c => if negb (in_rep ref [c]) then if in_rep idn [c] then [(c, ch_cp ch)] else [] else []) (ch_cp ch) else [])
           (all_repertoire ref true false).

(** ** Actions *)
(** A line: position in its LGR, in the table, in the reference, result. *)
Record action_line : Type := mkActLine { al_pos : nat; al_idn : bool; al_ref : bool; al_result : review }.
Fixpoint numbered {A} (n : nat) (l : list A) : list (nat * A) := match l with [] => [] | x :: l' => (n, x) :: numbered (S n) l' end.
(** actions.py:37-82 generate_actions_report.  The names are made of the position
    and the comment, so no two are equal. *)
Definition actions_report (idn ref : list action) : list action_line * review :=
  let matching := set_inter action_eqb idn ref in
  let idn_ordered := filter (fun a => memb action_eqb a matching) idn in
  let ref_ordered := filter (fun a => memb action_eqb a matching) ref in
  let same := (fix eqs (a b : list action) : bool :=
                 match a, b with [], [] => true | x :: a', y :: b' => if action_eqb x y then eqs a' b' else false | _, _ => false end) idn_ordered ref_ordered in
  let sequence := match idn with [] => RManual | _ :: _ => if same then RMatch else RManual end in
  (map (fun p => if memb action_eqb (snd p) idn_ordered then mkActLine (fst p) true true RMatch else mkActLine (fst p) true false RManual) (numbered 1 idn)
   ++ flat_map (fun p => if memb action_eqb (snd p) ref_ordered then [] else [mkActLine (fst p) false true RManual]) (numbered 1 ref),
   sequence).

(** ** Classes *)
Definition nset_inter := set_inter N.eqb.
Definition nset_diff := set_diff N.eqb.
Definition nset_xor (a b : list N) : list N := set_union N.eqb (nset_diff a b) (nset_diff b a).
Definition nonempty {A} (l : list A) : bool := match l with [] => false | _ => true end.
(** classes.py:27-67 compute_result_and_remark; [None] when the function ends
    without a return. *)
Definition class_result (idn ref idn_rep ref_rep : list N) : res (option (review * string)) :=
  let extra_idn := nset_diff idn ref in
  let extra_ref := nset_diff ref idn in
  if negb (nonempty (nset_xor idn ref)) then Ok (Some (RMatch, "Classes and their members are matched"))
  else if negb (nonempty idn) then
    if nonempty (nset_inter ref idn_rep)
    then Ok (Some (RManual, "Mismatch class (class does not exist in IDN Table; check for different class names)"))
    else Raise AssertionError
  else
  let rest :=
    let a := if nonempty extra_idn then nonempty (nset_inter extra_idn ref_rep) else false in
    let b := if nonempty extra_ref then nonempty (nset_inter extra_ref idn_rep) else false in
    match a, b with
    | true, true => Some (RReview, ("Mismatch class members (extra member(s) in IDN Table)" ++ newline ++ "Mismatch class members (missing member(s) in IDN Table)")%string)
    | true, false => Some (RReview, "Mismatch class members (extra member(s) in IDN Table)")
    | false, true => Some (RReview, "Mismatch class members (missing member(s) in IDN Table)")
    | false, false =>
        if nonempty extra_idn then Some (RManual, "Mismatch class members (extra member(s) in IDN Table which are not in Ref. LGR repertoire)")
        else if nonempty extra_ref then Some (RSubset, "Extra members in Ref. LGR not in IDN Table") else None
    end in
  if negb (nonempty ref) then
    if nonempty (nset_inter idn ref_rep) then Ok (Some (RManual, "Mismatch class (class does not exist in ref. LGR; check for different class names)"))
    else if nonempty (nset_xor idn ref_rep) then Ok (Some (RManual, "Mismatch class with only additional code points."))
    else Ok rest
  else Ok rest.
(** classes.py:69-82 to_dict: [None] for the empty dict; unpacking [None] is a
    TypeError. *)
Definition class_report (idn ref idn_rep ref_rep : list N) : res (option (review * string)) :=
  if (negb (nonempty idn) && negb (nonempty (nset_inter ref idn_rep)))%bool then Ok None
  else bind (class_result idn ref idn_rep ref_rep) (fun x => match x with Some p => Ok (Some p) | None => Raise TypeError end).

(** ** Variants *)
(** variant_sets.py:20-33 VariantData: [vd_fwd], [vd_rev] are sets. *)
Record vdata : Type := mkVdata { vd_fwd : list variant; vd_rev : list variant; vd_in : bool }.
Inductive direction : Type := Forward | Reverse.
Inductive rule_check : Type := RuleMatch | RuleLess | RuleMissing | RuleDifferent.
Inductive type_check : Type := TypeMatch | TypeLess | TypeMore | TypeUnknown.
Section VOrder.
  Variable order : list variant -> list variant.
  Definition on (d : direction) (x : vdata) : list variant := order (match d with Forward => vd_fwd x | Reverse => vd_rev x end).
  (** variant_sets.py:68-90. *)
  Fixpoint first_truthy (f : variant -> option string) (l : list variant) : option string :=
    match l with [] => None | v :: l' => if truthy (f v) then f v else first_truthy f l' end.
  Definition get_when (d : direction) (x : vdata) : option string := first_truthy v_when (on d x).
  Definition get_not_when (d : direction) (x : vdata) : option string := first_truthy v_not_when (on d x).
  (** variant_sets.py:92-126. *)
  Fixpoint type_where (p : variant -> bool) (l : list variant) : option string :=
    match l with [] => Some "" | v :: l' => if p v then v_type v else type_where p l' end.
  Definition types_of (d : direction) (x : vdata) : list (option string) :=
    [type_where (fun v => truthy (v_when v)) (on d x); type_where (fun v => truthy (v_not_when v)) (on d x);
     type_where (fun v => (negb (truthy (v_when v)) && negb (truthy (v_not_when v)))%bool) (on d x)].
  (** variant_sets.py:179-208 check_rules. *)
  Definition check_rules (d : direction) (idn ref : vdata) : rule_check :=
    let iw := get_when d idn in let inw := get_not_when d idn in
    let rw := get_when d ref in let rnw := get_not_when d ref in
    if (ostring_eqb iw rw && ostring_eqb inw rnw)%bool then RuleMatch
    else if ((truthy iw && truthy inw) || (truthy rw && truthy rnw))%bool then RuleDifferent
    else if ((truthy iw || truthy inw) && negb (truthy rw) && negb (truthy rnw))%bool then RuleLess
    else if ((negb (truthy iw) && negb (truthy inw) && truthy rw) || truthy rnw)%bool then RuleMissing
    else RuleDifferent.
  (** variant_sets.py:134 VARIANT_TYPES_ORDER. *)
  Definition types_order : list string := ["activated"; "optionally-activated"; "allocatable"; "optionally-allocatable"; "blocked"].
  Fixpoint rank (n : nat) (t : option string) (l : list string) : option nat :=
    match l with [] => None | x :: l' => if ostring_eqb t (Some x) then Some n else rank (S n) t l' end.
  (** variant_sets.py:238-257. *)
  Fixpoint compare_types (l : list (option string * option string)) (acc : option type_check) : option type_check :=
    match l with
    | [] => acc
    | (i, r) :: l' =>
        if (ostring_eqb i (Some "") || ostring_eqb r (Some ""))%bool then compare_types l' acc
        else match rank 0 i types_order, rank 0 r types_order with
             | Some a, Some b =>
                 let new := if Nat.ltb a b then TypeLess else TypeMore in
                 match acc, new with
                 | None, _ => compare_types l' (Some new)
                 | Some TypeLess, TypeLess => compare_types l' acc
                 | Some TypeMore, TypeMore => compare_types l' acc
                 | Some _, _ => Some TypeUnknown
                 end
             | _, _ => Some TypeUnknown
             end
    end.
  (** variant_sets.py:210-261 check_type. *)
  Fixpoint kinds_eqb (a b : list (option string)) : bool :=
    match a, b with [], [] => true | x :: a', y :: b' => if ostring_eqb x y then kinds_eqb a' b' else false | _, _ => false end.
  Definition check_type (d : direction) (idn ref : vdata) : option type_check :=
    let i := types_of d idn in let r := types_of d ref in
    if kinds_eqb i r then Some TypeMatch else compare_types (combine i r) None.
  (** variant_sets.py:308-354 get_result_and_remark. *)
  Definition variant_result (idn_set_missing ref_set_missing : bool) (idn ref : vdata) (d : direction) (in_idn_repertoire : bool) : res (review * string) :=
    if idn_set_missing then Ok (RReview, "Variant set exists in the reference LGR")
    else if ref_set_missing then Ok (RManual, "Variant set only exists in the IDN Table")
    else if negb (nonempty (vd_fwd idn)) then
      if in_idn_repertoire then Ok (RReview, "Variant member exists in the reference LGR") else Ok (RNote, "Not applicable")
    else if negb (nonempty (vd_fwd ref)) then Ok (RManual, "Variant member exists in IDN Table but not in the reference LGR")
    else
      match check_rules d idn ref, check_type d idn ref with
      | RuleLess, t =>
          Ok (RReview, ("IDN Table variant generation is less conservative as it only applies with some conditions" ++
                match t with
                | Some TypeLess => newline ++ "Variant type in the IDN Table is less conservative compared to the Ref. LGR"
                | Some TypeUnknown => newline ++ "Unknown variant type"
                | _ => ""
                end)%string)
      | _, Some TypeLess => Ok (RReview, "Variant type in the IDN Table is less conservative compared to the Ref. LGR")
      | _, Some TypeUnknown => Ok (RReview, "Unknown variant type")
      | RuleMissing, _ =>
          Ok (RManual, "Variant condition rules are mismatched. The IDN Table misses the rule. If the rule is not needed for the proper variant index calculation, then this is ok")
      | RuleDifferent, _ => Ok (RManual, "Variant contextual rules are different")
      | _, Some TypeMore => Ok (RNote, "Variant types are mismatched. IDN Table is more conservative compared to the Reference LGR")
      | RuleMatch, (Some TypeMatch | None) => Ok (RMatch, "Exact match (including type, conditional variant rule)")
      end.
End VOrder.

(** ** Pairing the variant sets *)
(** variant_sets.py:490-500: [dict[new] = dict.pop(old)] for the table,
    [dict[new] = dict[old]] for the reference. *)
Record pairing : Type := mkPairing { pr_idn : dict cps (list cps); pr_ref : dict cps (list cps); pr_updated : list cps; pr_new : list cps }.
Definition subset_of (a b : list cps) : bool := forallb (fun x => memb cps_eqb x b) a.
Definition cps_min (a b : cps) : cps := if cps_leb a b then a else b.
Definition pair_one (idn_id ref_id : cps) (idn_cps : list cps) (p : pairing) : res pairing :=
  match dget cps_eqb ref_id (pr_ref p) with
  | None => Raise (KeyErrorStr "")
  | Some ref_cps =>
      if (subset_of idn_cps ref_cps || subset_of ref_cps idn_cps)%bool then
        let new := cps_min idn_id ref_id in
        let p1 := mkPairing (pr_idn p) (pr_ref p) (pr_updated p) (new :: pr_new p) in
        bind (if dmem cps_eqb new (pr_idn p1) then Ok p1
              else match dget cps_eqb idn_id (pr_idn p1) with
                   | None => Raise (KeyErrorStr "")
                   | Some s => Ok (mkPairing (dset cps_eqb new s (ddel cps_eqb idn_id (pr_idn p1))) (pr_ref p1) (pr_updated p1) (pr_new p1))
                   end) (fun p2 =>
        if dmem cps_eqb new (pr_ref p2) then Ok p2
        else Ok (mkPairing (pr_idn p2) (dset cps_eqb new ref_cps (pr_ref p2)) (pr_updated p2 ++ [ref_id]) (pr_new p2)))
      else Ok p
  end.
Fixpoint pair_refs (idn_id : cps) (idn_cps : list cps) (only_ref : list cps) (p : pairing) : res pairing :=
  match only_ref with
  | [] => Ok p
  | r :: rest => bind (pair_one idn_id r idn_cps p) (pair_refs idn_id idn_cps rest)
  end.
Fixpoint pair_idns (only_idn only_ref : list cps) (p : pairing) : res pairing :=
  match only_idn with
  | [] => Ok p
  | i :: rest =>
      match dget cps_eqb i (pr_idn p) with
      | None => Raise (KeyErrorStr "")
      | Some s => bind (pair_refs i s only_ref p) (pair_idns rest only_ref)
      end
  end.
(** variant_sets.py:502-510; the keys of the counter. *)
Fixpoint pop_updated (l : list cps) (new : list cps) (d : dict cps (list cps)) : res (dict cps (list cps)) :=
  match l with
  | [] => Ok d
  | r :: l' =>
      if memb cps_eqb r new then pop_updated l' new d
      else if dmem cps_eqb r d then pop_updated l' new (ddel cps_eqb r d) else Raise (KeyErrorStr "")
  end.
Definition by_first (sets : list (list cps)) : dict cps (list cps) :=
  fold_left (fun d s => match s with [] => d | x :: _ => dset cps_eqb x s d end) sets [].
(** variant_sets.py:480-514: the pairs of sets that are compared. *)
Definition pair_sets (idn_sets ref_sets : list (list cps)) : res (list (cps * (list cps * list cps))) :=
  let idn := by_first idn_sets in
  let ref := by_first ref_sets in
  let only_idn := filter (fun k => negb (dmem cps_eqb k ref)) (dkeys idn) in
  let only_ref := filter (fun k => negb (dmem cps_eqb k idn)) (dkeys ref) in
  bind (pair_idns only_idn only_ref (mkPairing idn ref [] [])) (fun p =>
  bind (pop_updated (dedup cps_eqb (pr_updated p)) (pr_new p) (pr_ref p)) (fun ref' =>
  Ok (map (fun k => (k, (match dget cps_eqb k (pr_idn p) with Some s => s | None => [] end, match dget cps_eqb k ref' with Some s => s | None => [] end)))
          (isort cps_leb (set_union cps_eqb (dkeys (pr_idn p)) (dkeys ref')))))).

(** ** The report on a pair of variant sets *)
Section Rows.
  Variable order : list variant -> list variant.
  Variable order_cps : list cps -> list cps.
  (** variant_sets.py:27-33 add_variant; sets are kept without repetitions. *)
  Definition vset_add (l : list variant) (v : variant) : list variant := if memb variant_eqb v l then l else l ++ [v].
  Definition vdata_add (x : vdata) (fwd : variant) (rev : list variant) : vdata :=
    mkVdata (vset_add (vd_fwd x) fwd) (fold_left vset_add rev (vd_rev x)) (vd_in x).
  Definition no_data : vdata := mkVdata [] [] false.
  (** variant_sets.py:416-429 get_variant_data; [seen] is [reversed_variants]. *)
  Definition seen_of (seen : dict cps (list cps)) (c : cps) : list cps := match dget cps_eqb c seen with Some l => l | None => [] end.
  Fixpoint variant_data (r : repertoire) (c : cps) (vs : list variant) (seen : dict cps (list cps)) (d : dict cps vdata) : res (dict cps (list cps) * dict cps vdata) :=
    match vs with
    | [] => Ok (seen, d)
    | v :: vs' =>
        if memb cps_eqb (v_cp v) (seen_of seen c) then variant_data r c vs' seen d
        else
          let put (in_lgr : bool) (rev : list variant) :=
            dset cps_eqb (v_cp v) (vdata_add (match dget cps_eqb (v_cp v) d with Some x => x | None => mkVdata [] [] in_lgr end) v rev) d in
          match rep_get_variant r (v_cp v) c with
          | Ok o => variant_data r c vs' (dset cps_eqb (v_cp v) (seen_of seen (v_cp v) ++ [c]) seen) (put true (match o with Some l => l | None => [] end))
          | Raise (NotInLGR _) => variant_data r c vs' seen (put false [])
          | Raise e => Raise e
          end
    end.
  Definition char_data (r : repertoire) (c : cps) (seen : dict cps (list cps)) : res (dict cps (list cps) * dict cps vdata) :=
    match rep_get_char r c with
    | Ok ch => variant_data r c (get_variants ch) seen []
    | Raise (NotInLGR _) => Ok (seen, [])
    | Raise e => Raise e
    end.
  (** A row: source, destination, forward and reverse result and remark.  The
      notice on a missing sequence (285-288) is left out of the remarks. *)
  Record vrow : Type := mkVrow { vr_src : cps; vr_dst : cps; vr_fwd : review * string; vr_rev : review * string }.
  (** variant_sets.py:59-60 in_repertoire. *)
  Definition both_in (x : vdata) (r : repertoire) : bool :=
    match vd_fwd x with
    | [] => false
    | v :: _ => if in_rep r (v_cp v) then match vd_rev x with [] => false | w :: _ => in_rep r (v_cp w) end else false
    end.
  (** variant_sets.py:280-306 to_dict. *)
  Definition variant_row (c d : cps) (idn ref : vdata) (idn_missing ref_missing : bool) (idn_rep : repertoire) : res vrow :=
    bind (variant_result order idn_missing ref_missing idn ref Forward (both_in ref idn_rep)) (fun f =>
    bind (variant_result order idn_missing ref_missing idn ref Reverse (both_in ref idn_rep)) (fun b => Ok (mkVrow c d f b))).
  Definition data_at (d : dict cps vdata) (k : cps) : vdata := match dget cps_eqb k d with Some x => x | None => no_data end.
  Fixpoint rows_at (c : cps) (ks : list cps) (idn ref : dict cps vdata) (im rm : bool) (ir : repertoire) : res (list vrow) :=
    match ks with
    | [] => Ok []
    | k :: ks' => bind (variant_row c k (data_at idn k) (data_at ref k) im rm ir) (fun x => bind (rows_at c ks' idn ref im rm ir) (fun l => Ok (x :: l)))
    end.
  (** variant_sets.py:385-411, the loop. *)
  Fixpoint set_rows (cs : list cps) (im rm : bool) (ir rr : repertoire) (iseen rseen : dict cps (list cps)) : res (list vrow) :=
    match cs with
    | [] => Ok []
    | c :: cs' =>
        bind (char_data ir c iseen) (fun i =>
        bind (char_data rr c rseen) (fun r =>
        bind (rows_at c (order_cps (set_union cps_eqb (dkeys (snd i)) (dkeys (snd r)))) (snd i) (snd r) im rm ir) (fun l =>
        bind (set_rows cs' im rm ir rr (fst i) (fst r)) (fun l' => Ok (l ++ l')))))
    end.
  (** variant_sets.py:372-384: a member of a set missing in the table may be a
      sequence one of whose code points is there; the first such sequence and the
      code points of the table. *)
  Definition all_single (ir : repertoire) : list N := flat_map ch_cp (rep_iter ir).
  Fixpoint missing_sequence (ref_set : list cps) (ir : repertoire) : option (cps * list cps) :=
    match ref_set with
    | [] => None
    | c :: rest =>
        if Nat.ltb 1 (List.length c) then
          match set_inter N.eqb c (all_single ir) with
          | [] => missing_sequence rest ir
          | l => Some (c, filter (in_rep ir) (map (fun x => [x]) l))
          end
        else missing_sequence rest ir
    end.
  (** [relevant_repertoire], as a list. *)
  Definition relevant (idn_set ref_set : list cps) (ir : repertoire) : list cps :=
    set_union cps_eqb
      (match idn_set with [] => match missing_sequence ref_set ir with Some (_, l) => l | None => [] end | _ :: _ => [] end)
      (filter (in_rep ir) (set_union cps_eqb idn_set ref_set)).
  (** variant_sets.py:366-413 and 453-467: no report when the relevant repertoire
      is empty; rows are sorted by destination.  The symmetry and transitivity
      checks are those of the validation tool and are left out. *)
  Definition row_leb (a b : vrow) : bool := cps_leb (vr_dst a) (vr_dst b).
  (** 383: the entry of the missing sequence is taken from the reference. *)
  Definition look_sequence (idn_set ref_set : list cps) (ir rr : repertoire) : res (option cps) :=
    match idn_set with
    | [] => match missing_sequence ref_set ir with
            | Some (c, _) => bind (rep_get_char rr c) (fun _ => Ok (Some c))
            | None => Ok None
            end
    | _ :: _ => Ok None
    end.
  Definition set_report (idn_set ref_set : list cps) (ir rr : repertoire) : res (option (list vrow)) :=
    bind (look_sequence idn_set ref_set ir rr) (fun _ =>
    bind (set_rows (isort cps_leb (set_union cps_eqb idn_set ref_set)) (negb (nonempty idn_set)) (negb (nonempty ref_set)) ir rr [] []) (fun l =>
    Ok (if nonempty (relevant idn_set ref_set ir) then Some (isort row_leb l) else None))).
  Fixpoint reports_for (ps : list (cps * (list cps * list cps))) (ir rr : repertoire) : res (list (list cps * list cps * list vrow)) :=
    match ps with
    | [] => Ok []
    | (_, (i, r)) :: ps' =>
        bind (set_report i r ir rr) (fun x =>
        bind (reports_for ps' ir rr) (fun l => Ok (match x with Some rows => (i, r, rows) :: l | None => l end)))
    end.
  (** variant_sets.py:480-524 generate_variant_sets_report. *)
  Definition variant_sets_report (ir rr : repertoire) : res (list (list cps * list cps * list vrow)) :=
    match get_variant_sets ir true, get_variant_sets rr true with
    | Some a, Some b => bind (pair_sets a b) (fun ps => reports_for ps ir rr)
    | _, _ => Raise OutOfFuel
    end.
End Rows.
(** variant_sets.py:470-477 get_additional_codepoints: [variants_flat] holds the
    tuples [(first of each set), (second of each set), ...], whose elements are
    themselves tuples of code points; [char.cp], a tuple of code points, is never
    one of them. *)
Fixpoint zip_sets (fuel : nat) (sets : list (list cps)) : list (list cps) :=
  match fuel, sets with
  | O, _ | _, [] => []
  | S f, _ => if forallb nonempty sets then map (fun s => hd [] s) sets :: zip_sets f (map (@tl cps) sets) else []
  end.
(** Python equality of a tuple of code points and a tuple of tuples: equal only
    if both are empty. *)
Definition tuple_eqb (c : cps) (t : list cps) : bool := match c, t with [], [] => true | _, _ => false end.
Definition additional_codepoints (ir rr : repertoire) (idn_sets : list (list cps)) : list cps :=
  map ch_cp (filter (fun ch => if negb (existsb (tuple_eqb (ch_cp ch)) (zip_sets (List.length (hd [] idn_sets)) idn_sets)) then negb (in_rep rr (ch_cp ch)) else false)
                    (rep_iter ir)).

(** ** Rules *)
(** whole_label_evaluation_rules.py:358-361: for the table, a code point goes to
    its [when] rule, or else to its [not-when] rule; all code points are visited. *)
Definition add_context (d : dict string (list cps)) (k : string) (c : cps) : dict string (list cps) :=
  dset String.eqb k ((match dget String.eqb k d with Some l => l | None => [] end) ++ [c]) d.
Definition idn_contexts (r : repertoire) : dict string (list cps) :=
  fold_left (fun d ch =>
               match ch_when ch, ch_not_when ch with
               | Some w, n => if truthy (Some w) then add_context d w (ch_cp ch)
                              else match n with Some x => if truthy n then add_context d x (ch_cp ch) else d | None => d end
               | None, Some x => if truthy (Some x) then add_context d x (ch_cp ch) else d
               | None, None => d
               end) (all_repertoire r true true) [].
(** 368-373: for the reference, to both; ranges count by their first code point
    only. *)
Definition ref_contexts (r : repertoire) : dict string (list cps) :=
  fold_left (fun d ch =>
               let d1 := match ch_when ch with Some w => if truthy (Some w) then add_context d w (ch_cp ch) else d | None => d end in
               match ch_not_when ch with Some x => if truthy (Some x) then add_context d1 x (ch_cp ch) else d1 | None => d1 end)
            (rep_iter r) [].
Definition context_of (d : dict string (list cps)) (k : string) : list cps := match dget String.eqb k d with Some l => l | None => [] end.
Definition cps_xor (a b : list cps) : list cps := set_union cps_eqb (set_diff cps_eqb a b) (set_diff cps_eqb b a).
(** whole_label_evaluation_rules.py:280-295 compare_wle; a rule is its text. *)
Definition compare_wle (idn_rep : list cps) (idn ref : option string) (ic rc : list cps) : review * string :=
  match idn, ref with
  | None, _ =>
      if nonempty rc then
        if nonempty (set_inter cps_eqb idn_rep rc) then (RManual, "Mismatch (WLE rule only exists in Ref. LGR)")
        else (RSubset, "Match as a subset (for the rules missing in IDN Table, applicable code points in Ref. LGR are not in IDN Table)")
      else (RManual, "Mismatch (WLE rule only exists in Ref. LGR)")
  | Some _, None => (RManual, "Mismatch (WLE rule only exists in IDN Table)")
  | Some a, Some b =>
      if String.eqb a b then if nonempty (cps_xor ic rc) then (RManual, "Check the content of the rule") else (RMatch, "Exact Match (matched names and content)")
      else (RManual, "Check the content of the rule")
  end.
Record wle_line : Type := mkWle { wl_name : string; wl_idn : bool; wl_ref : bool; wl_result : review * string }.
(** 473-482: the comparison, rules sorted by name. *)
Definition string_leb (a b : string) : bool := match String.compare a b with Gt => false | _ => true end.
Definition wle_report (ir rr : repertoire) (idn ref : dict string string) : list wle_line :=
  map (fun n => mkWle n (is_some (dget String.eqb n idn)) (is_some (dget String.eqb n ref))
                  (compare_wle (map ch_cp (rep_iter ir)) (dget String.eqb n idn) (dget String.eqb n ref)
                               (context_of (idn_contexts ir) n) (context_of (ref_contexts rr) n)))
      (isort string_leb (set_union String.eqb (dkeys idn) (dkeys ref))).
(** whole_label_evaluation_rules.py:402-422 check_label_cp_in_repertoire. *)
Fixpoint label_in (fuel : nat) (r : repertoire) (label : cps) : res bool :=
  match fuel with
  | O => Raise OutOfFuel
  | S f =>
      match label with
      | [] => Raise IndexError
      | x :: rest =>
          match get_chars_from_prefix r x false with
          | Raise (NotInLGR _) => Ok false
          | Raise e => Raise e
          | Ok chars =>
              (fix each (l : list char) (result : bool) : res bool :=
                 match l with
                 | [] => Ok result
                 | ch :: l' =>
                     if is_seq ch then
                       if prefixb (ch_cp ch) label
                       then bind (label_in f r (skipn (List.length (ch_cp ch)) label)) (fun b => each l' (result || b)%bool)
                       else each l' result
                     else match rest with
                          | [] => Ok true
                          | _ :: _ => bind (label_in f r rest) (fun b => each l' (result || b)%bool)
                          end
                 end) chars false
          end
      end
  end.
Definition check_label_in (r : repertoire) (label : cps) : res bool := label_in (S (List.length label)) r label.
