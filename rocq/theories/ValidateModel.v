(** Model of lgr/validate: symmetry, transitivity, conditional variants,
    statistics, rebuilding and the driver.  No proofs here.

    Simplifications: log messages dropped; the RFC 7940 notifications
    (core.py:1471-1492) a check makes are returned as a list of reports, to be
    applied to the table of Rfc7940Model; the average in the statistics is left
    as the two numbers it is computed from. *)
From Verif Require Import Base CharModel RefModel LgrModel Rfc7940Model.
Open Scope string_scope.
Open Scope list_scope.

(** A loop of checks: each item yields its success, issues and reports; an
    exception ends the loop, reports made so far being kept. *)
Fixpoint check_loop {A I} (f : A -> res (bool * list I * list report)) (l : list A)
  : list report * res (bool * list I) :=
  match l with
  | [] => ([], Ok (true, []))
  | x :: l' =>
      match f x with
      | Raise e => ([], Raise e)
      | Ok (ok, is, rs) =>
          let '(rs', o) := check_loop f l' in
          (rs ++ rs', bind o (fun '(ok', is') => Ok (ok && ok', is ++ is')))
      end
  end.

(** All (character, variant) pairs visited: ranges are skipped. *)
Definition variant_pairs (g : lgr) : list (char * variant) :=
  flat_map (fun a => if is_range a then [] else map (fun b => (a, b)) (get_variants a)) (rep_iter (lg_rep g)).

(** ** validate/symmetry.py:16-112 *)
Inductive sym_problem : Type :=
| SymNotInRepertoire | SymMissing | SymWhen (rule : option string) | SymNotWhen (rule : option string).
Definition sym_pair (g : lgr) (ignore_rules : bool) (p : char * variant)
  : res (bool * list (char * variant * sym_problem) * list report) :=
  let '(a, b) := p in
  bind (rep_contains (lg_rep g) (v_cp b)) (fun present =>
  if negb present then Ok (false, [(a, b, SymNotInRepertoire)], [("basic_symmetry", false)])
  else
  bind (lgr_get_variants g (v_cp b)) (fun vs =>
  let reverse := filter (fun v => cps_eqb (ch_cp a) (v_cp v)) vs in
  match reverse with
  | [] => Ok (false, [(a, b, SymMissing)], [("basic_symmetry", false)])
  | _ =>
      if ignore_rules then Ok (true, [], [])
      else if truthy (v_when b) && negb (memb ostring_eqb (v_when b) (map v_when reverse))
      then Ok (false, [(a, b, SymWhen (v_when b))], [("strict_symmetry", false)])
      else if truthy (v_not_when b) && negb (memb ostring_eqb (v_not_when b) (map v_not_when reverse))
      then Ok (false, [(a, b, SymNotWhen (v_not_when b))], [("strict_symmetry", false)])
      else Ok (true, [], [])
  end)).
Definition check_symmetry (g : lgr) (ignore_rules : bool)
  : list report * res (bool * list (char * variant * sym_problem)) :=
  let '(rs, o) := check_loop (sym_pair g ignore_rules) (variant_pairs g) in
  match o with
  | Ok _ => (rs ++ [("basic_symmetry", true); ("strict_symmetry", true)], o)
  | Raise _ => (rs, o)
  end.

(** ** validate/transitivity.py:17-75 *)
Definition trans_pair (g : lgr) (p : char * variant) : res (bool * list (char * variant) * list report) :=
  let '(a, b) := p in
  match lgr_get_variants g (v_cp b) with
  | Raise (NotInLGR _) => Ok (false, [], [])
  | Raise e => Raise e
  | Ok vs =>
      let bad := filter (fun c => negb (cps_eqb (v_cp c) (ch_cp a))
                                  && negb (memb cps_eqb (v_cp c) (map v_cp (get_variants a)))) vs in
      Ok (match bad with [] => true | _ => false end, map (fun c => (a, c)) bad,
          map (fun _ => ("basic_transitivity", false)) bad)
  end.
Definition check_transitivity (g : lgr) : list report * res (bool * list (char * variant)) :=
  let '(rs, o) := check_loop (trans_pair g) (variant_pairs g) in
  match o with
  | Ok _ => (rs ++ [("basic_transitivity", true)], o)
  | Raise _ => (rs, o)
  end.

(** ** validate/conditional_variants.py:17-65; [rules] is [lgr.rules]. *)
Definition in_rules (rules : list string) (s : option string) : bool :=
  match s with None => true | Some r => memb String.eqb r rules end.
Definition cond_pair (rules : list string) (p : char * variant) : list (char * variant * bool * option string) :=
  let '(a, v) := p in
  (if in_rules rules (v_when v) then [] else [(a, v, true, v_when v)]) ++
  (if in_rules rules (v_not_when v) then [] else [(a, v, false, v_not_when v)]).
Definition check_conditional_variants (g : lgr) (rules : list string)
  : bool * list (char * variant * bool * option string) :=
  let issues := flat_map (cond_pair rules) (variant_pairs g) in
  (match issues with [] => true | _ => false end, issues).

(** ** validate/lgr_stats.py:15-89 *)
Record stats : Type := mkStats {
  st_codepoints : N;
  st_ranges : N; st_largest_range : option char; st_largest_range_len : N;
  st_sequences : N; st_largest_sequence : option char; st_largest_sequence_len : N;
  st_with_variants : N; st_mappings : N; st_by_type : dict (option string) N; st_largest_set : N;
  st_by_tag : dict string N
}.
Definition stats0 : stats := mkStats 0 0 None 0 0 None 0 0 0 [] 0 [].
Definition count_add {K} (eqb : K -> K -> bool) (n : N) (d : dict K N) (k : K) : dict K N :=
  match dget eqb k d with Some m => dset eqb k (m + n) d | None => dset eqb k n d end.
(** One turn of the loop, lgr_stats.py:47-84. *)
Definition stats_step (s : stats) (c : char) : stats :=
  let range_len := match ch_kind c with KRange f l => l - f + 1 | _ => 1 end in
  let variants := get_variants c in
  let targets := dedup cps_eqb (map v_cp variants) in
  let set_len := match variants with
                 | [] => 0
                 | _ => N.of_nat (length (dedup cps_eqb (map v_cp variants ++ [ch_cp c])))
                 end in
  mkStats
    (st_codepoints s + range_len)
    (st_ranges s + (if is_range c then 1 else 0))
    (if is_range c && N.ltb (st_largest_range_len s) range_len then Some c else st_largest_range s)
    (if is_range c && N.ltb (st_largest_range_len s) range_len then range_len else st_largest_range_len s)
    (st_sequences s + (if is_seq c then 1 else 0))
    (if is_seq c && N.ltb (st_largest_sequence_len s) (N.of_nat (length (ch_cp c)))
     then Some c else st_largest_sequence s)
    (if is_seq c && N.ltb (st_largest_sequence_len s) (N.of_nat (length (ch_cp c)))
     then N.of_nat (length (ch_cp c)) else st_largest_sequence_len s)
    (st_with_variants s + (if N.ltb 0 set_len then 1 else 0))
    (st_mappings s + N.of_nat (length targets))
    (fold_left (count_add ostring_eqb 1) (map v_type variants) (st_by_type s))
    (N.max (st_largest_set s) set_len)
    (fold_left (count_add String.eqb range_len) (ch_tags c) (st_by_tag s)).
Definition generate_stats (g : lgr) : stats := fold_left stats_step (rep_iter (lg_rep g)) stats0.

(** exceptions.py:8-290: the subclasses of LGRException. *)
Definition is_lgr_exception (e : exn) : bool :=
  match e with
  | AssertionError | IndexError | KeyErrorCp _ | KeyErrorStr _ | ValueError | OverflowError | TypeError | OutOfFuel => false
  | _ => true
  end.

(** ** validate/__init__.py:21-66.  [CHECKS] is a module-level list that the
    driver extends in place, so it is part of the state of the process.  What a
    check function does is [run]: a result or an exception. *)
Definition initial_checks : list string :=
  ["check_xml_validity"; "check_symmetry"; "check_transitivity"; "check_conditional_variants"; "rebuild_lgr"; "compute_stats"].
Definition rfc7940_checks : list string := ["check_metadata"; "check_miscellaneous"].
Inductive check_result (R : Type) : Type := Result (r : R) | Failure (e : exn).
Arguments Result {R} r.
Arguments Failure {R} e.
Fixpoint run_all {R} (run : string -> res R) (l : list string) : res (list (string * check_result R)) :=
  match l with
  | [] => Ok []
  | n :: l' =>
      match run n with
      | Ok r => bind (run_all run l') (fun rs => Ok ((n, Result r) :: rs))
      | Raise e => if is_lgr_exception e then bind (run_all run l') (fun rs => Ok ((n, Failure e) :: rs)) else Raise e
      end
  end.
Definition validate_lgr {R} (run : string -> res R) (checks : list string) (rfc7940 : bool)
  : list string * res (list (string * check_result R)) :=
  let checks' := if rfc7940 then checks ++ rfc7940_checks else checks in
  (checks', run_all run checks').
