(** Specification vocabulary for the review tool. *)
From Verif Require Import Base CharModel RepSpec LgrModel LgrSpec LgrReach ValidateSpec LabelSpec GeneralSpec WholeModel WholeSpec HarmToolSpec RevToolModel.
Open Scope string_scope.
Open Scope list_scope.

(** The files given can be read. *)
Definition readable (read : string -> res (option (option cps * idn_table))) (paths : list string) : Prop :=
  forall p, In p paths -> exists v x, read p = Ok (Some (v, x)).
(** The file for a table and a reference is named after both. *)
Definition report_of (t r f : string) : Prop :=
  exists a b, file_name t a /\ file_name r b /\ f = (a ++ "_" ++ b ++ ".json")%string.
(** No two pairs have their reports in one file. *)
Definition separate (tables references : list string) : Prop :=
  forall t r t' r' f, In t tables -> In t' tables -> In r references -> In r' references -> report_of t r f -> report_of t' r' f -> t = t' /\ r = r'.
Definition different_names (paths : list string) : Prop :=
  forall p p' n, In p paths -> In p' paths -> file_name p n -> file_name p' n -> p = p'.
Definition no_underscore (paths : list string) : Prop :=
  forall p n a b, In p paths -> file_name p n -> n <> (a ++ "_" ++ b)%string.
(** The review of a table against a reference, with the names and versions of both. *)
Definition holds_review (worlds : idn_table -> world) (today : cps) (read : string -> res (option (option cps * idn_table))) (t r : string) (c : content) : Prop :=
  exists a b v x v' y w s, file_name t a /\ file_name r b /\ read t = Ok (Some (v, x)) /\ read r = Ok (Some (v', y)) /\
    review_lgr (worlds x) x y = Ok (w, s) /\ c = Report (mkHeader today (a, v) (Some (b, v'))) w s.
(** Every table given can be reviewed against every reference given. *)
Definition completing (worlds : idn_table -> world) (read : string -> res (option (option cps * idn_table))) (tables references : list string) : Prop :=
  forall t r v x v' y, In t tables -> In r references -> read t = Ok (Some (v, x)) -> read r = Ok (Some (v', y)) ->
    exists w s, review_lgr (worlds x) x y = Ok (w, s).
(** What a review needs of a table, and of a reference. *)
Definition reviewable (o : world) (t : idn_table) : Prop :=
  lgr_reachable (it_lgr t) /\ symmetric (it_rep t) /\ classes_fine (wo_runtime o) (wo_fuel o) t.
Definition without_sequences (t : idn_table) : Prop := forall c ch, lookup (it_rep t) c = Some ch -> is_seq ch = false.
