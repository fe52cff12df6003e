(** Model of tools/lgr_idn_table_review.py, of lgr/tools/idn_review/header.py, and of
    review.py's review without a reference.  No proofs here.

    Simplifications: reading a file is an argument, as are the orders in which sets
    come; json.dumps and the log other than the names of the files announced as
    skipped are dropped; the output directory has no sub-directories and is
    case-sensitive; the date is an argument, the disclaimer dropped. *)
From Verif Require Import Base CharModel LgrModel LangModel GeneralModel WholeModel HarmToolModel.
Open Scope string_scope.
Open Scope list_scope.

(** What reading a file gives: the name of the LGR, the value of its version if it
    has one, and what the review reads of it. *)
Record read_table : Type := mkRead { rt_name : string; rt_version : option cps; rt_table : idn_table }.

(** header.py:14-41 generate_header: the date, name and version of the table, those
    of the reference if there is one. *)
Record header : Type := mkHeader { he_date : cps; he_table : string * option cps; he_reference : option (string * option cps) }.
Definition generate_header (today : cps) (idn : read_table) (ref : option read_table) : header :=
  mkHeader today (rt_name idn, rt_version idn) (option_map (fun r => (rt_name r, rt_version r)) ref).

(** What a file of the output directory holds: something written before, nothing,
    or a report. *)
Inductive content : Type :=
| Other (text : cps)
| Empty
| Report (h : header) (w : whole) (s : summary).

Section Tool.
  (** What the review takes from elsewhere, for a table. *)
  Variable worlds : idn_table -> world.
  Variable today : cps.
  (** Order in which the elements of a set of paths come. *)
  Variable order : list string -> list string.
  (** lgr/tools/utils.py:351-363 parse_lgr: None if the schema refuses. *)
  Variable read : string -> res (option (option cps * idn_table)).

  (** parse_lgr with parser.py:25-28: the LGR is named after its file. *)
  Definition parse_file (path : string) : res (option read_table) :=
    bind (read path) (fun o => Ok (option_map (fun p : option cps * idn_table => mkRead (base_name path) (fst p) (snd p)) o)).

  (** tools/lgr_idn_table_review.py:42-47 and 49-55: what is read, in the order of
      the set, and the files announced as skipped, which are kept as None. *)
  Fixpoint parse_files (paths : list string) : res (list (option read_table) * list string) :=
    match paths with
    | [] => Ok ([], [])
    | p :: paths' =>
        bind (parse_file p) (fun o =>
        bind (parse_files paths') (fun r =>
        Ok (o :: fst r, match o with None => p :: snd r | Some _ => snd r end)))
    end.
  Definition parse_set (paths : list string) : res (list (option read_table) * list string) :=
    parse_files (order (dedup String.eqb paths)).

  (** 60: str() of an LGR is its name (core.py:2126-2129). *)
  Definition str_of (o : option read_table) : string := match o with None => "None" | Some t => rt_name t end.
  Definition report_name (idn ref : option read_table) : string := (str_of idn ++ "_" ++ str_of ref ++ ".json")%string.

  (** 61 with review.py:22-31, on None too: header.py:26 and language_tag.py:66-71
      read attributes of both; TypeError stands for AttributeError. *)
  Definition review_pair (idn ref : option read_table) : res content :=
    match idn, ref with
    | Some i, Some r =>
        bind (review_lgr (worlds (rt_table i)) (rt_table i) (rt_table r)) (fun ws =>
        Ok (Report (generate_header today i (Some r)) (fst ws) (snd ws)))
    | _, _ => Raise TypeError
    end.

  (** 60-61: the file is opened, hence emptied, before the review. *)
  Definition write_review (idn ref : option read_table) (dir : dict string content) : dict string content * res unit :=
    let dir1 := dset String.eqb (report_name idn ref) Empty dir in
    match review_pair idn ref with
    | Raise e => (dir1, Raise e)
    | Ok c => (dset String.eqb (report_name idn ref) c dir1, Ok tt)
    end.
  (** 58-61 *)
  Fixpoint write_against (idn : option read_table) (refs : list (option read_table)) (dir : dict string content) : dict string content * res unit :=
    match refs with
    | [] => (dir, Ok tt)
    | r :: refs' =>
        match write_review idn r dir with
        | (dir', Ok _) => write_against idn refs' dir'
        | (dir', Raise e) => (dir', Raise e)
        end
    end.
  Fixpoint write_all (tables refs : list (option read_table)) (dir : dict string content) : dict string content * res unit :=
    match tables with
    | [] => (dir, Ok tt)
    | t :: tables' =>
        match write_against t refs dir with
        | (dir', Ok _) => write_all tables' refs dir'
        | (dir', Raise e) => (dir', Raise e)
        end
    end.

  (** 24-61: the directory, and the files announced as skipped. *)
  Definition review_tool (tables references : list string) (dir : dict string content) : dict string content * res (list string) :=
    match bind (parse_set references) (fun r => bind (parse_set tables) (fun t => Ok (r, t))) with
    | Raise e => (dir, Raise e)
    | Ok ((refs, skipped_refs), (idns, skipped_idns)) =>
        match write_all idns refs dir with
        | (dir', Raise e) => (dir', Raise e)
        | (dir', Ok _) => (dir', Ok (skipped_refs ++ skipped_idns))
        end
    end.
End Tool.

(** review.py:34-39 review_with_core_requirements, with
    whole_label_evaluation_rules.py:491-492: [idna] is the IDNA property of a code
    point; cp_report (utils.py:25-32) needs a database for each code point. *)
Record core : Type := mkCore { co_header : header; co_repertoire : list (cps * cps) * nat * nat; co_digits : bool; co_general : general }.
Definition core_review (worlds : idn_table -> world) (today : cps) (idna : N -> cps) (idn : read_table) : res core :=
  let t := rt_table idn in
  let o := worlds t in
  bind (need (is_some (it_db t)) (all_repertoire (it_rep t) true true)) (fun _ =>
  bind (table_general (wo_digit o) (wo_mark o) (wo_rtl o) (wo_script_rtl o) (wo_test o) (wo_tags o) (it_rep t) (it_languages t) None) (fun g =>
  Ok (mkCore (generate_header today idn None) (repertoire_core_report idna (it_rep t)) (variant_sets_core_report (wo_digit o) (it_rep t)) g))).
