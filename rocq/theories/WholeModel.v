(** Model of the whole review of an IDN table against a reference LGR:
    lgr/tools/idn_review/review.py, summary.py, and what the reports of
    ReviewModel, LangModel and GeneralModel leave out of classes.py,
    variant_sets.py and actions.py.  No proofs here.

    Not modelled: the header (file names, versions, today's date), the glyphs and
    names of code points. *)
From Verif Require Import Base CharModel ActionModel LgrModel CompareModel ValidateModel ClassModel ReviewModel LangModel GeneralModel.
Open Scope string_scope.
Open Scope list_scope.

(** What the review reads of an LGR: its languages, the LGR itself, its Unicode
    database, its classes by key with whether they are implicit, the texts of its
    rules, its actions. *)
Record idn_table : Type := mkTable {
  it_languages : list cps; it_lgr : lgr; it_db : option ClassModel.unidb;
  it_classes : dict string (bool * cls); it_rules : dict string string; it_actions : list action }.
Definition it_rep (t : idn_table) : repertoire := lg_rep (it_lgr t).

(** ** Classes *)
(** classes.py:89, 109-110: implicit names last, then by name. *)
Definition tag_prefix : string := "#__internal_tag_".
Definition class_leb (a b : string) : bool :=
  match String.prefix tag_prefix a, String.prefix tag_prefix b with
  | false, true => true
  | true, false => false
  | _, _ => string_leb a b
  end.
(** classes.py:87-88: the code points, without the sequences. *)
Definition single_points (r : repertoire) : list N :=
  flat_map (fun ch => match ch_cp ch with c :: _ => [c] | [] => [] end) (all_repertoire r false true).
Section Classes.
  (** Whether an exception is a RuntimeError: among others NotImplementedError and
      RecursionError, which [OutOfFuel] stands for. *)
  Variable runtime : exn -> bool.
  Variable fuel : nat.
  Definition look_of (t : dict string (bool * cls)) : table := map (fun p => (fst p, snd (snd p))) t.
  (** classes.py:94-98. *)
  Definition members_of (u : ClassModel.unidb) (t : dict string (bool * cls)) (rep : list N) (c : cls) : res (list N) :=
    match class_set u (look_of t) fuel c with
    | Ok s => Ok (filter s rep)
    | Raise e => if runtime e then Ok [] else Raise e
    end.
  (** classes.py:89-99, the loop over the sorted names. *)
  Fixpoint class_members (u : ClassModel.unidb) (t : dict string (bool * cls)) (rep : list N) (names : list string) : res (dict string (list N)) :=
    match names with
    | [] => Ok []
    | n :: names' =>
        match dget String.eqb n t with
        | None => Raise (KeyErrorStr n)
        | Some (true, _) => class_members u t rep names'
        | Some (false, c) =>
            bind (members_of u t rep c) (fun l => bind (class_members u t rep names') (fun d => Ok ((n, l) :: d)))
        end
    end.
  (** classes.py:85-101 get_repertoire_and_class_members; the database may be
      None. *)
  Definition table_members (x : idn_table) : res (dict string (list N) * list N) :=
    match it_db x with
    | None => Raise TypeError
    | Some u =>
        let rep := single_points (it_rep x) in
        bind (class_members u (it_classes x) rep (isort class_leb (dkeys (it_classes x)))) (fun d => Ok (d, rep))
    end.
  (** classes.py:104-118 generate_classes_report: the key of a class, its members
      in the table and in the reference, result and remark.  The prefix of implicit
      classes is not taken off. *)
  Record class_line : Type := mkClassLine { kl_name : string; kl_idn : list N; kl_ref : list N; kl_result : review * string }.
  Definition members_at (d : dict string (list N)) (n : string) : list N := match dget String.eqb n d with Some l => l | None => [] end.
  Fixpoint class_lines (names : list string) (i r : dict string (list N)) (ir rr : list N) : res (list class_line) :=
    match names with
    | [] => Ok []
    | n :: names' =>
        bind (class_report (members_at i n) (members_at r n) ir rr) (fun x =>
        bind (class_lines names' i r ir rr) (fun l =>
        Ok (match x with Some p => mkClassLine n (members_at i n) (members_at r n) p :: l | None => l end)))
    end.
  Definition classes_report (idn ref : idn_table) : res (list class_line) :=
    bind (table_members idn) (fun i =>
    bind (table_members ref) (fun r =>
    class_lines (isort class_leb (set_union String.eqb (dkeys (fst i)) (dkeys (fst r)))) (fst i) (fst r) (snd i) (snd r))).
End Classes.

(** ** Variants *)
(** variant_sets.py:285-288: the notice on a missing sequence, on both remarks of
    every row of the set.  [shown] is str() of a code point or sequence. *)
Section Notice.
  Variable shown : cps -> string.
  Definition notice (c : cps) : string := ("." ++ newline ++ "The sequence """ ++ shown c ++ """ may be missing.")%string.
  Definition with_notice (o : option cps) (p : review * string) : review * string :=
    match o with Some c => (fst p, (snd p ++ notice c)%string) | None => p end.
  Definition noticed (ir : repertoire) (x : list cps * list cps * list vrow) : list cps * list cps * list vrow :=
    let '(i, r, rows) := x in
    let o := match i with [] => option_map fst (missing_sequence r ir) | _ :: _ => None end in
    (i, r, map (fun w => mkVrow (vr_src w) (vr_dst w) (with_notice o (vr_fwd w)) (with_notice o (vr_rev w))) rows).
End Notice.
(** variant_sets.py:435-447: an LGR made of the members of a set and their
    variants; None when a member is not in the repertoire. *)
Fixpoint copy_variants (g : lgr) (c : cps) (vs : list variant) : res lgr :=
  match vs with
  | [] => Ok g
  | v :: vs' =>
      match lgr_add_variant g c (v_cp v) None None None None [] None false false with
      | (g', Ok _) => copy_variants g' c vs'
      | (g', Raise (VariantAlreadyExists _ _)) => copy_variants g' c vs'
      | (_, Raise e) => Raise e
      end
  end.
Fixpoint copy_set (g : lgr) (r : repertoire) (s : list cps) : res (option lgr) :=
  match s with
  | [] => Ok (Some g)
  | c :: s' =>
      match lgr_add_cp g c None [] [] None None None false false with
      | (_, Raise e) => Raise e
      | (g1, Ok _) =>
          match rep_get_char r c with
          | Raise (NotInLGR _) => Ok None
          | Raise e => Raise e
          | Ok ch => bind (copy_variants g1 c (get_variants ch)) (fun g2 => copy_set g2 r s')
          end
      end
  end.
(** variant_sets.py:431-451 checks: symmetry and transitivity of a set of the
    table, None for a set it does not have. *)
Definition set_checks (r : repertoire) (s : list cps) : res (option (bool * bool)) :=
  match s with
  | [] => Ok None
  | _ :: _ =>
      bind (copy_set (new_lgr None false) r s) (fun o =>
      match o with
      | None => Ok (Some (false, false))
      | Some g =>
          bind (snd (check_symmetry g false)) (fun x =>
          bind (snd (check_transitivity g)) (fun y => Ok (Some (fst x, fst y))))
      end)
  end.
Fixpoint all_checks (r : repertoire) (l : list (list cps * list cps * list vrow)) : res (list (option (bool * bool))) :=
  match l with
  | [] => Ok []
  | (i, _, _) :: l' => bind (set_checks r i) (fun x => bind (all_checks r l') (fun l0 => Ok (x :: l0)))
  end.

(** ** The whole *)
(** actions.py:70-80: the remarks. *)
Definition action_remark (l : action_line) : string :=
  if al_idn l then if al_ref l then "Exact Match (action name and content are the same)" else "Mismatch (additional action)"
  else "Mismatch (missing action)".

Record whole : Type := mkWhole {
  wh_tags : list (cps * list (cps * (review * string)));
  wh_repertoire : list cp_line; wh_in_sequences : list (N * cps);
  wh_variants : list (list cps * list cps * list vrow); wh_checks : list (option (bool * bool)); wh_additional : list cps;
  wh_classes : list class_line;
  wh_rules : list wle_line; wh_general : general; wh_rules_cp : list cps;
  wh_actions : list action_line; wh_sequence : review }.
Definition part : Type := string * dict string (string * nat).
Record summary : Type := mkSummary { su_tags : part; su_repertoire : part; su_variants : part; su_classes : part; su_rules : part; su_actions : part }.

(** What reaches [handle_report]: results by name. *)
Definition as_named (l : list (review * string)) : list (string * string) := map (fun p => (result_name (fst p), snd p)) l.
Definition tag_lines (w : whole) : list (review * string) := flat_map (fun r => map snd (snd r)) (wh_tags w).
Definition cp_lines (w : whole) : list (review * string) := map (fun l => (cl_result l, cl_remark l)) (wh_repertoire w).
(** Two pairs per row. *)
Definition variant_lines (w : whole) : list (review * string) :=
  flat_map (fun r => flat_map (fun x => [vr_fwd x; vr_rev x]) (snd r)) (wh_variants w).
Definition class_results (w : whole) : list (review * string) := map kl_result (wh_classes w).
Definition rule_lines (w : whole) : list (review * string) := map wl_result (wh_rules w).
Definition action_lines (w : whole) : list (review * string) := map (fun l => (al_result l, action_remark l)) (wh_actions w).
(** summary.py:38-45 generate_summary. *)
Definition generate_summary (w : whole) : res summary :=
  bind (handle_report (as_named (tag_lines w))) (fun a =>
  bind (handle_report (as_named (cp_lines w))) (fun b =>
  bind (handle_report (as_named (variant_lines w))) (fun c =>
  bind (handle_report (as_named (class_results w))) (fun d =>
  bind (handle_report (as_named (rule_lines w))) (fun e =>
  bind (handle_report (as_named (action_lines w))) (fun f =>
  Ok (mkSummary a b c d e f))))))).

(** What the review takes from elsewhere: the language registry, the Unicode
    database, str() of a sequence, RuntimeError, how deep classes are followed, whether
    the table accepts a label, and the orders in which sets come. *)
Record world : Type := mkWorld {
  wo_tags : cps -> tag; wo_alpha2 : cps -> option cps;
  wo_digit : N -> bool; wo_mark : N -> bool; wo_rtl : N -> bool; wo_script_rtl : cps -> bool;
  wo_shown : cps -> string; wo_runtime : exn -> bool; wo_fuel : nat; wo_test : cps -> res bool;
  wo_strings : list string -> list string; wo_variants : list variant -> list variant; wo_cps : list cps -> list cps }.

(** repertoire.py:117, 86 and utils.py:29: the names of the code points need a
    database. *)
Definition need {A} (db : bool) (l : list A) : res unit := if nonempty l then if db then Ok tt else Raise TypeError else Ok tt.
(** review.py:22-31 review_lgr. *)
Definition review_lgr (o : world) (idn ref : idn_table) : res (whole * summary) :=
  let ir := it_rep idn in
  let rr := it_rep ref in
  let tags := language_tag_report (wo_tags o) (wo_alpha2 o) (it_languages idn) (it_languages ref) in
  let cps_ := repertoire_report (wo_strings o) ir rr in
  bind (need (is_some (it_db idn) || is_some (it_db ref)) cps_) (fun _ =>
  bind (variant_sets_report (wo_variants o) (wo_cps o) ir rr) (fun rows =>
  bind (all_checks ir rows) (fun checks =>
  let additional := additional_codepoints ir rr (match get_variant_sets ir true with Some s => s | None => [] end) in
  bind (need (is_some (it_db idn)) additional) (fun _ =>
  bind (classes_report (wo_runtime o) (wo_fuel o) idn ref) (fun classes =>
  bind (table_general (wo_digit o) (wo_mark o) (wo_rtl o) (wo_script_rtl o) (wo_test o) (wo_tags o) ir (it_languages idn) (Some (it_languages ref))) (fun general =>
  let rules := wle_report ir rr (it_rules idn) (it_rules ref) in
  let actions := actions_report (it_actions idn) (it_actions ref) in
  let w := mkWhole tags cps_ (cp_in_sequences ir rr) (map (noticed (wo_shown o) ir) rows) checks additional classes
                   rules general (additional_cp ir rr) (fst actions) (snd actions) in
  bind (generate_summary w) (fun s => Ok (w, s)))))))).
