(** Model of the general rules and of the reports without reference of
    lgr/tools/idn_review (whole_label_evaluation_rules.py, repertoire.py,
    variant_sets.py).  No proofs here. *)
From Verif Require Import Base CharModel LgrModel UtilsModel ReviewModel LangModel.
Open Scope string_scope.
Open Scope list_scope.

(** whole_label_evaluation_rules.py:19-58 SAME_SCRIPTS. *)
Definition same_scripts : dict cps cps :=
  [(txt "Aran", txt "Arab"); (txt "Cyrs", txt "Cyrl"); (txt "ace", txt "zh"); (txt "yue", txt "zh"); (txt "wuu", txt "zh");
   (txt "gan", txt "zh"); (txt "och", txt "zh"); (txt "cjy", txt "zh"); (txt "hak", txt "zh"); (txt "hsn", txt "zh");
   (txt "cpx", txt "zh"); (txt "czh", txt "zh"); (txt "mnp", txt "zh"); (txt "nan", txt "zh"); (txt "cdo", txt "zh");
   (txt "cmn", txt "zh"); (txt "lzh", txt "zh"); (txt "zhx", txt "zh"); (txt "czo", txt "zh"); (txt "ltc", txt "zh");
   (txt "csl", txt "zh"); (txt "cpi", txt "zh"); (txt "kvk", txt "ko"); (txt "oko", txt "ko"); (txt "okm", txt "ko");
   (txt "ka", txt "Knda"); (txt "kan", txt "Knda"); (txt "he", txt "Hebr"); (txt "iw", txt "Hebr"); (txt "hbo", txt "Hebr");
   (txt "ojp", txt "ja"); (txt "jpx", txt "ja"); (txt "jsl", txt "ja"); (txt "Jpan", txt "ja"); (txt "Kana", txt "ja");
   (txt "Hira", txt "ja"); (txt "Latg", txt "Latn"); (txt "Latf", txt "Latn")].
(** whole_label_evaluation_rules.py:60-88 COMBINING_MARK_LABELS. *)
Definition combining_mark_labels : dict cps (list cps) :=
  [(txt "Arab", []); (txt "Armn", []); (txt "Beng", [[2497; 2478; 2478]]); (txt "Cyrl", []);
   (txt "Deva", [[2376; 2348; 2348]]); (txt "Ethi", []); (txt "Geor", []); (txt "Grek", []);
   (txt "Gujr", [[2748; 2732]]); (txt "Guru", [[2562; 2592]]); (txt "zh", []); (txt "Knda", [[3203; 3222]]);
   (txt "ko", []); (txt "Hebr", []); (txt "ja", []); (txt "Khmr", [[6071; 6026]]);
   (txt "Laoo", [[3764; 3741; 3741]]); (txt "Latn", []); (txt "Mlym", [[3330; 3356]]); (txt "Mymr", [[4146; 4101]]);
   (txt "Orya", [[2819; 2837]]); (txt "Sinh", [[3458; 3496]]); (txt "Taml", [[3006; 2970]]);
   (txt "Telu", [[3075; 3094]]); (txt "Thaa", [[1958; 1926]]); (txt "Thai", [[3639; 3585]]);
   (txt "Tibt", [[3968; 3904]])].
(** whole_label_evaluation_rules.py:90-145 CONSECUTIVE_HYPHEN_LABELS. *)
Definition consecutive_hyphen_labels : dict cps (list cps) :=
  [(txt "Arab", [[45; 1578; 1578]; [1578; 1578; 45]; [1578; 1578; 45; 45; 1578; 1578]]);
   (txt "Armn", [[45; 1377; 1377]; [1377; 1377; 45]; [1377; 1377; 45; 45; 1377; 1377]]);
   (txt "Beng", [[45; 2478; 2478]; [2478; 2478; 45]; [2478; 2478; 45; 45; 2478; 2478]]);
   (txt "Cyrl", [[45; 1076; 1076]; [1076; 1076; 45]; [1076; 1076; 45; 45; 1076; 1076]]);
   (txt "Deva", [[45; 2348; 2348]; [2348; 2348; 45]; [2348; 2348; 45; 45; 2348; 2348]]);
   (txt "Ethi", [[45; 4648; 4648]; [4648; 4648; 45]; [4648; 4648; 45; 45; 4648; 4648]]);
   (txt "Geor", [[45; 4305; 4305]; [4305; 4305; 45]; [4305; 4305; 45; 45; 4305; 4305]]);
   (txt "Grek", [[45; 960; 960]; [960; 960; 45]; [960; 960; 45; 45; 960; 960]]);
   (txt "Gujr", [[45; 2732; 2732]; [2732; 2732; 45]; [2732; 2732; 45; 45; 2732; 2732]]);
   (txt "Guru", [[45; 2592; 2592]; [2592; 2592; 45]; [2592; 2592; 45; 45; 2592; 2592]]);
   (txt "zh", [[45; 20004; 20004]; [20004; 20004; 45]; [20004; 20004; 45; 45; 20004; 20004]]);
   (txt "Knda", [[45; 3221; 3221]; [3221; 3221; 45]; [3221; 3221; 45; 45; 3221; 3221]]);
   (txt "ko", [[45; 44032; 44032]; [44032; 44032; 45]; [44032; 44032; 45; 45; 44032; 44032]]);
   (txt "Hebr", [[45; 1489; 1489]; [1489; 1489; 45]; [1489; 1489; 45; 45; 1489; 1489]]);
   (txt "ja", [[45; 12388; 12388]; [12388; 12388; 45]; [12388; 12388; 45; 45; 12388; 12388]]);
   (txt "Khmr", [[45; 6026; 6026]; [6026; 6026; 45]; [6026; 6026; 45; 45; 6026; 6026]]);
   (txt "Laoo", [[45; 3741; 3741]; [3741; 3741; 45]; [3741; 3741; 45; 45; 3741]]);
   (txt "Latn", [[45; 109; 109]; [109; 109; 45]; [109; 109; 45; 45; 109; 109]]);
   (txt "Mlym", [[45; 3356; 3356]; [3356; 3356; 45]; [3356; 3356; 45; 45; 3356; 3356]]);
   (txt "Mymr", [[45; 4101; 4101]; [4101; 4101; 45]; [4101; 4101; 45; 45; 4101; 4101]]);
   (txt "Orya", [[45; 2837; 2837]; [2837; 2837; 45]; [2837; 2837; 45; 45; 2837; 2837]]);
   (txt "Sinh", [[45; 3496; 3496]; [3496; 3496; 45]; [3496; 3496; 45; 45; 3496; 3496]]);
   (txt "Taml", [[45; 2970; 2970]; [2970; 2970; 45]; [2970; 2970; 45; 45; 2970; 2970]]);
   (txt "Telu", [[45; 3094; 3094]; [3094; 3094; 45]; [3094; 3094; 45; 45; 3094; 3094]]);
   (txt "Thaa", [[45; 1926; 1926]; [1926; 1926; 45]; [1926; 1926; 45; 45; 1926; 1926]]);
   (txt "Thai", [[45; 3585; 3585]; [3585; 3585; 45]; [3585; 3585; 45; 45; 3585; 3585]]);
   (txt "Tibt", [[45; 3904; 3904]; [3904; 3904; 45]; [3904; 3904; 45; 45; 3904; 3904]])].
(** whole_label_evaluation_rules.py:147-175 BEGIN_DIGIT_LABELS. *)
Definition begin_digit_labels : dict cps (list cps) :=
  [(txt "Arab", [[50; 1578; 1578]; [1632; 1578; 1578]; [1781; 1578; 1578]]); (txt "Armn", []); (txt "Beng", []);
   (txt "Cyrl", []); (txt "Deva", []); (txt "Ethi", []); (txt "Geor", []); (txt "Grek", []); (txt "Gujr", []);
   (txt "Guru", []); (txt "zh", []); (txt "ko", []); (txt "Knda", []); (txt "Hebr", [[51; 1489; 1489]]);
   (txt "ja", []); (txt "Khmr", []); (txt "Laoo", []); (txt "Latn", []); (txt "Mlym", []); (txt "Mymr", []);
   (txt "Orya", []); (txt "Taml", []); (txt "Telu", []); (txt "Thaa", [[52; 1926]]); (txt "Thai", []);
   (txt "Tibt", [])].
(** whole_label_evaluation_rules.py:177-206 MULTIPLE_DIGIT_SETS_LABELS. *)
Definition multiple_digit_sets_labels : dict cps (list cps) :=
  [(txt "Arab", [[1578; 1578; 50; 1634]; [1578; 1578; 50; 1781]; [1578; 1578; 1634; 1781]]); (txt "Armn", []);
   (txt "Beng", [[2478; 2478; 50; 2537]]); (txt "Cyrl", []); (txt "Deva", [[2349; 50; 2406]]); (txt "Ethi", []);
   (txt "Geor", []); (txt "Grek", []); (txt "Gujr", [[2732; 50; 2798]]); (txt "Guru", []); (txt "zh", []);
   (txt "ko", []); (txt "Knda", [[3205; 3303; 49]]); (txt "Hebr", []); (txt "ja", []);
   (txt "Khmr", [[6026; 50; 6117]]); (txt "Laoo", [[3741; 3801; 51]]); (txt "Latn", []); (txt "Mlym", []);
   (txt "Mymr", [[4101; 4162; 53]; [4101; 53; 4245]; [4101; 4162; 4245]]); (txt "Orya", []); (txt "Sinh", []);
   (txt "Taml", []); (txt "Telu", []); (txt "Thaa", []); (txt "Thai", [[3585; 3667; 51]]);
   (txt "Tibt", [[3904; 51; 3879]])].
(** whole_label_evaluation_rules.py:208-236 JAPANESE_CONTEXTJ_LABELS. *)
Definition japanese_contextj_labels : dict cps (list cps) :=
  [(txt "Arab", []); (txt "Armn", []); (txt "Beng", []); (txt "Cyrl", []); (txt "Deva", []); (txt "Ethi", []);
   (txt "Geor", []); (txt "Grek", []); (txt "Gujr", []); (txt "Guru", []); (txt "zh", []); (txt "ko", []);
   (txt "Knda", []); (txt "Hebr", []); (txt "ja", [[98; 12539; 97]]); (txt "Khmr", []); (txt "Laoo", []);
   (txt "Latn", []); (txt "Mlym", []); (txt "Mymr", []); (txt "Orya", []); (txt "Sinh", []); (txt "Taml", []);
   (txt "Telu", []); (txt "Thaa", []); (txt "Thai", []); (txt "Tibt", [])].

Section General.
  (** The Unicode database. *)
  Variable is_digit is_mark is_rtl : N -> bool.
  Variable is_script_rtl : cps -> bool.
  Variable idna_prop : N -> cps.
  (** test_label (451-453): whether test_label_eligible accepts a label. *)
  Variable test : cps -> res bool.

  (** whole_label_evaluation_rules.py:335-343 get_language_tags: the formats of
      the languages, then the scripts. *)
  Definition table_tags (tags : cps -> tag) (languages : list cps) : list cps :=
    flat_map (fun l => match tg_language (tags l) with Some x => [ln_format x] | None => [] end) (isort cps_leb languages) ++
    get_scripts tags languages true.

  (** 345-366 get_context_rules: what the single code points of the table tell. *)
  Definition singles (r : repertoire) : list N :=
    flat_map (fun ch => match ch_cp ch with [c] => [c] | _ => [] end) (all_repertoire r true true).
  Definition nbr_digits (r : repertoire) : nat := length (filter is_digit (singles r)).
  Definition has_digits (r : repertoire) : bool := existsb is_digit (singles r).
  Definition has_mark (r : repertoire) : bool := existsb is_mark (singles r).
  Definition many_digits (r : repertoire) : bool := Nat.ltb 10 (nbr_digits r).
  (** 329-333 check_rtl and 355-357. *)
  Definition table_rtl (r : repertoire) (scripts language_tags : list cps) : bool :=
    existsb is_script_rtl scripts || (negb (nonempty language_tags) && existsb is_rtl (singles r)).
  (** 358-363 and 455-457: no context rule, and not in the reference. *)
  Definition additional_cp (r ref : repertoire) : list cps :=
    isort cps_leb (map ch_cp (filter (fun ch => negb (truthy (ch_when ch)) && negb (truthy (ch_not_when ch)) && negb (in_rep ref (ch_cp ch)))
                                     (all_repertoire r true true))).

  (** 375-382 get_labels. *)
  Definition same_script (s : cps) : cps := match dget cps_eqb s same_scripts with Some x => x | None => s end.
  Definition get_labels (language_tags : list cps) (collection : dict cps (list cps)) : list cps :=
    flat_map (fun s => match dget cps_eqb (same_script s) collection with Some l => l | None => [] end) language_tags.
  (** 384-400 make_report: applicable, and whether the rule exists. *)
  Fixpoint try_labels (r : repertoire) (labels : list cps) (result : option bool) : res (option bool) :=
    match labels with
    | [] => Ok result
    | label :: rest =>
        bind (check_label_in r label) (fun inside =>
        if inside then bind (test label) (fun ok => if ok then Ok (Some false) else try_labels r rest (Some true))
        else Ok None)
    end.
  Definition make_report (r : repertoire) (language_tags : list cps) (condition : bool) (collection : dict cps (list cps))
    : res (bool * option bool) :=
    if condition then bind (try_labels r (get_labels language_tags collection) None) (fun x => Ok (true, x))
    else Ok (false, None).

  (** 424-438 and 460-470: the five reports. *)
  Record general : Type := mkGeneral {
    ge_mark : bool * option bool; ge_hyphen : bool * option bool; ge_rtl : bool * option bool;
    ge_digits : bool * option bool; ge_contextj : bool * option bool }.
  Definition general_rules (r : repertoire) (scripts language_tags : list cps) : res general :=
    bind (make_report r language_tags (has_mark r) combining_mark_labels) (fun a =>
    bind (make_report r language_tags (in_rep r [45]) consecutive_hyphen_labels) (fun b =>
    bind (make_report r language_tags (table_rtl r scripts language_tags && has_digits r) begin_digit_labels) (fun c =>
    bind (make_report r language_tags (many_digits r) multiple_digit_sets_labels) (fun d =>
    bind (make_report r language_tags (in_rep r [12539]) japanese_contextj_labels) (fun e =>
    Ok (mkGeneral a b c d e)))))).
  (** 311-327 __init__: the tags of the table, or else of the reference. *)
  Definition table_general (tags : cps -> tag) (r : repertoire) (languages : list cps) (reference : option (list cps)) : res general :=
    let own := table_tags tags languages in
    let all := if nonempty own then own
               else match reference with Some l => table_tags tags l | None => [] end in
    general_rules r (get_scripts tags languages true) all.

  (** repertoire.py:131-143 generate_repertoire_core_report: the code points with
      the text of their properties, the numbers of valid and of invalid ones. *)
  Definition props_text (c : cps) : cps := join [32] (map idna_prop c).
  Definition pvalid : cps := txt "PVALID".
  (** set(text.split(' ')) != {'PVALID'} *)
  Definition is_invalid (text : cps) : bool := negb (forallb (cps_eqb pvalid) (split_on 32 text)).
  Definition repertoire_core_report (r : repertoire) : list (cps * cps) * nat * nat :=
    let report := map (fun ch => (ch_cp ch, props_text (ch_cp ch))) (all_repertoire r true true) in
    let invalid := length (filter (fun x : cps * cps => is_invalid (snd x)) report) in
    (report, length report - invalid, invalid)%nat.
  (** variant_sets.py:527-539 generate_variant_sets_core_report. *)
  Definition variant_sets_core_report (r : repertoire) : bool := many_digits r.
End General.
