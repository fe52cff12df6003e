(** Property theorems about text notation (C07, C40), references (C12), test
    results (C14) and actions (C15).  Statements only. *)
From Verif Require Import Base BaseFacts UtilsModel UtilsSpec UtilsProofs Rfc7940Model Rfc7940Spec Rfc7940Proofs
  RefModel RefSpec RefProofs ActionModel ActionSpec ActionProofs.
Open Scope string_scope.
Open Scope list_scope.

(** C07: collapsing keeps exactly the code points (with multiplicity) and, for
    a set of code points, yields increasing, disjoint, non adjacent ranges. *)
Theorem C07_collapse_exact : forall l, l <> [] ->
  exists rs, collapse_codepoints l = Ok rs /\
    Permutation (expand_ranges_list rs) l /\
    (NoDup l -> StronglySorted separated rs /\ Forall (fun p => fst p <= snd p) rs).
Proof. exact collapse_spec. Qed.
Print Assumptions C07_collapse_exact.

(** ... independently of the order of the input ... *)
Theorem C07_collapse_order_independent : forall l1 l2, Permutation l1 l2 ->
  collapse_codepoints l1 = collapse_codepoints l2.
Proof. exact collapse_order_independent. Qed.
Print Assumptions C07_collapse_order_independent.

(** ... and it is the only such list of ranges (so the shortest). *)
Theorem C07_collapse_unique : forall l rs rs', NoDup l -> collapse_codepoints l = Ok rs ->
  StronglySorted separated rs' -> Forall (fun p => fst p <= snd p) rs' ->
  (forall x, In x (expand_ranges_list rs') <-> In x l) -> rs' = rs.
Proof. exact collapse_unique. Qed.
Print Assumptions C07_collapse_unique.

Example C07_nontrivial : collapse_codepoints [7; 3; 1; 2; 9; 8] = Ok [(1, 3); (7, 9)].
Proof. reflexivity. Qed.

(** C40: hexadecimal notation of one code point reads back, and is injective. *)
Theorem C40_cp_to_str_roundtrip : forall n, py_int 16 (cp_to_str n) = Ok (Z.of_N n).
Proof. exact py_int_cp_to_str. Qed.
Print Assumptions C40_cp_to_str_roundtrip.

(** The [cp] attribute of the XML format. *)
Theorem C40_cp_attribute_roundtrip : forall c, parse_cp_attr (format_cp_attr c) = Ok (map Z.of_N c).
Proof. exact cp_attr_roundtrip. Qed.
Print Assumptions C40_cp_attribute_roundtrip.

Theorem C40_cp_attribute_injective : forall a b, format_cp_attr a = format_cp_attr b -> a = b.
Proof. exact format_cp_attr_inj. Qed.
Print Assumptions C40_cp_attribute_injective.

(** The U+XXXX notation, read by the command line input parser, for every
    sequence of Unicode code points; larger numbers are refused. *)
Theorem C40_format_cp_roundtrip : forall c, Forall (fun n => n <= 1114111) c ->
  parse_codepoint_input (format_cp c) = Ok c.
Proof. exact format_cp_roundtrip. Qed.
Print Assumptions C40_format_cp_roundtrip.

Theorem C40_parse_single : forall n,
  parse_single_cp_input (u_plus ++ cp_to_str n) =
  if N.leb n 1114111 then Ok n else Raise ValueError.
Proof. exact parse_single_u_plus. Qed.
Print Assumptions C40_parse_single.

(** Space-separated attribute lists. *)
Theorem C40_string_to_list_roundtrip : forall ws, ws <> [[]] -> Forall (fun w => ~ In 32 w) ws ->
  string_to_list (join [32] ws) = ws.
Proof. exact string_to_list_join. Qed.
Print Assumptions C40_string_to_list_roundtrip.

Example C40_nontrivial : format_cp [233; 128512] = txt "U+00E9 U+1F600" /\
  parse_codepoint_input (txt " u+e9   1F600 ") = Ok [233; 128512].
Proof. split; reflexivity. Qed.

(** C12: every history of the reference manager is a history of the
    specification, with the same outputs and the same table. *)
Theorem C12_references_refine : forall ops,
  let '(m, outs) := ref_run empty_refman ops in
  NoDup (dkeys (rm_refs m)) /\
  exists a, r_run r_empty ops a outs /\ (forall k, r_lookup m k = r_map a k) /\ rm_next m = r_next a.
Proof. exact references_refine. Qed.
Print Assumptions C12_references_refine.

(** In the specification a successful add never overwrites anything ... *)
Theorem C12_add_never_overwrites : forall a v c id a' s, r_step a (RAdd v c id) a' (ROk s) ->
  r_map a s = None /\ r_map a' s = Some (mkRef v c) /\ (forall k, k <> s -> r_map a' k = r_map a k).
Proof. exact r_step_add_fresh. Qed.
Print Assumptions C12_add_never_overwrites.

(** ... and every operation has at most one outcome. *)
Theorem C12_deterministic : forall a o a1 x1 a2 x2,
  r_step a o a1 x1 -> r_step a o a2 x2 -> x1 = x2 /\ r_same a1 a2.
Proof. exact r_step_deterministic. Qed.
Print Assumptions C12_deterministic.

Example C12_nontrivial :
  snd (ref_run empty_refman [RAdd "A" None None; RAdd "B" None None; RAdd "C" None (Some "0");
                             RDel "0"; RAdd "D" None None; RAdd "E" None (Some "x"); RUpdate "1" (Some "B2") None])
  = [ROk "0"; ROk "1"; RExn (ReferenceAlreadyExists "0"); RUnit; ROk "0"; RExn (ReferenceInvalidId "x"); RUnit].
Proof. vm_compute. reflexivity. Qed.

(** C14: what is recorded for a test, whatever the order of the reports. *)
Theorem C14_recorded_result : forall l t,
  (dget String.eqb t (apply_reports [] l) = None <-> ~ executed l t) /\
  (dget String.eqb t (apply_reports [] l) = Some false <-> failed l t) /\
  (dget String.eqb t (apply_reports [] l) = Some true <-> executed l t /\ ~ failed l t).
Proof. exact apply_get_empty. Qed.
Print Assumptions C14_recorded_result.

Theorem C14_failure_sticky : forall d l t,
  dget String.eqb t d = Some false -> dget String.eqb t (apply_reports d l) = Some false.
Proof. exact failure_sticky. Qed.
Print Assumptions C14_failure_sticky.

Theorem C14_verdict : forall desc l pol,
  let v := get_final_result desc (apply_reports [] l) (Some pol) false in
  (v = "FAIL" <-> spec_error l pol) /\
  (v = "WARN" <-> ~ spec_error l pol /\ spec_warn l pol) /\
  (v = "PASS" <-> ~ spec_error l pol /\ ~ spec_warn l pol).
Proof. exact verdict_spec. Qed.
Print Assumptions C14_verdict.

Theorem C14_verdict_without_policy : forall desc l v,
  get_final_result desc (apply_reports [] l) None v =
  if existsb (fun p : report => negb (snd p)) l then "FAIL" else "PASS".
Proof. exact no_policy. Qed.
Print Assumptions C14_verdict_without_policy.

Theorem C14_verdict_order_independent : forall desc l1 l2 pol v,
  same_reports l1 l2 ->
  get_final_result desc (apply_reports [] l1) pol v = get_final_result desc (apply_reports [] l2) pol v.
Proof. exact verdict_order_independent. Qed.
Print Assumptions C14_verdict_order_independent.

Theorem C14_verbose_same_verdict : forall desc d pol,
  exists pre, get_final_result desc d (Some pol) true = (pre ++ get_final_result desc d (Some pol) false)%string.
Proof. exact verbose_suffix. Qed.
Print Assumptions C14_verbose_same_verdict.

Example C14_nontrivial :
  get_final_result (fun s => s) (apply_reports [] [("a", true); ("b", false); ("b", true)])
    (Some [("a", "ERROR"); ("b", "WARNING")]) false = "WARN".
Proof. reflexivity. Qed.

(** C15: the verdict is the one of the first action that triggers, explicit
    actions first and then the defaults; some action always triggers. *)
Theorem C15_first_triggered : forall rmatch acts label ds only,
  exists i a, nth_error (acts ++ default_actions) i = Some a /\ triggers rmatch a label ds only /\
    (forall j b, (j < i)%nat -> nth_error (acts ++ default_actions) j = Some b -> ~ triggers rmatch b label ds only) /\
    apply_actions rmatch acts label ds only = (Some (a_disp a), Z.of_nat i).
Proof. exact first_triggered. Qed.
Print Assumptions C15_first_triggered.

Theorem C15_later_actions_irrelevant : forall rmatch acts extra label ds only d i,
  apply_actions rmatch acts label ds only = (Some d, Z.of_nat i) -> (i < length acts)%nat ->
  apply_actions rmatch (acts ++ extra) label ds only = (Some d, Z.of_nat i).
Proof. exact later_actions_irrelevant. Qed.
Print Assumptions C15_later_actions_irrelevant.

Theorem C15_default_verdict : forall rmatch acts label ds only,
  (forall a, In a acts -> ~ triggers rmatch a label ds only) ->
  fst (apply_actions rmatch acts label ds only) =
  Some (if existsb (in_types ["invalid"]) ds then "invalid"
        else if existsb (in_types ["blocked"]) ds then "blocked"
        else if existsb (in_types ["allocatable"]) ds then "allocatable"
        else match ds with
             | [] => "valid"
             | _ => if forallb (in_types ["activated"]) ds then "activated" else "valid"
             end).
Proof. exact default_verdict. Qed.
Print Assumptions C15_default_verdict.

Theorem C15_type_set_semantics : forall rmatch acts label ds1 ds2 only,
  (forall d, In d ds1 <-> In d ds2) ->
  apply_actions rmatch acts label ds1 only = apply_actions rmatch acts label ds2 only.
Proof. exact actions_set_semantics. Qed.
Print Assumptions C15_type_set_semantics.

Example C15_nontrivial :
  apply_actions (fun r _ _ => String.eqb r "bad")
    [mkAction "x" (Some "good") None None None None; mkAction "y" None (Some "good") None (Some ["a"; "b"]) None]
    [1; 2] [Some "a"; Some "b"] false = (Some "y", 1%Z).
Proof. reflexivity. Qed.
