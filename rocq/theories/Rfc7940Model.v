(** Model of lgr/rfc7940.py: the aggregator of RFC 7940 test results.
    No proofs here. *)
From Verif Require Import Base.
Open Scope string_scope.

(** rfc7940.py:40-41: [test_result]. *)
Definition results := dict string bool.

(** rfc7940.py:63-76 add_test_result. *)
Definition add_test_result (d : results) (label : string) (success : bool) : results :=
  if negb success || negb (dmem String.eqb label d)
  then dset String.eqb label success d else d.

(** rfc7940.py:43-49 error, 51-61 tested. *)
Definition report_error (d : results) (label : string) : results := add_test_result d label false.
Definition report_tested (d : results) (label : string) : results := add_test_result d label true.

(** A report: test label and success. *)
Definition report := (string * bool)%type.
Definition apply_reports (d : results) (l : list report) : results :=
  fold_left (fun d (p : report) => add_test_result d (fst p) (snd p)) l d.

(** rfc7940.py:105-130: the loop over the policy; [desc] is the description
    table lookup.  Returns (info, got_warning, got_error). *)
Definition nl : string := String (Ascii.ascii_of_N 10) EmptyString.
Fixpoint policy_loop (desc : string -> string) (verbose : bool) (d : results)
  (policy : dict string string) (info : string) (warn err : bool) : string * bool * bool :=
  match policy with
  | [] => (info, warn, err)
  | (test, p) :: rest =>
      let say (s : string) := if verbose then info ++ s else info in
      match dget String.eqb test d with
      | None => policy_loop desc verbose d rest (say ("ERROR: " ++ desc test ++ " - NOT EXECUTED" ++ nl)) warn true
      | Some false =>
          if String.eqb p "IGNORE"
          then policy_loop desc verbose d rest (say ("IGNORE: " ++ desc test ++ " - NOK" ++ nl)) warn err
          else if String.eqb p "WARNING"
          then policy_loop desc verbose d rest (say ("WARNING: " ++ desc test ++ " - NOK" ++ nl)) true err
          else policy_loop desc verbose d rest (say ("ERROR: " ++ desc test ++ " - NOK" ++ nl)) warn true
      | Some true => policy_loop desc verbose d rest (say ("PASS: " ++ desc test ++ " - OK" ++ nl)) warn err
      end
  end.

(** rfc7940.py:78-139 get_final_result. *)
Definition get_final_result (desc : string -> string) (d : results)
  (policy : option (dict string string)) (verbose : bool) : string :=
  match policy with
  | None => if existsb negb (dvals d) then "FAIL" else "PASS"
  | Some pol =>
      let '(info, warn, err) := policy_loop desc verbose d pol "" false false in
      let info := if verbose then info ++ "Validation result: " else info in
      if err then info ++ "FAIL" else if warn then info ++ "WARN" else info ++ "PASS"
  end.
