(** What rebuilding an LGR must report, independently of how it is done. *)
From Verif Require Import Base CharModel RepSpec LgrModel LgrSpec RebuildModel.
Open Scope string_scope.
Open Scope list_scope.

(** The target Unicode database does not accept the code point. *)
Definition bad (db : option unidb) (x : N) : Prop :=
  exists d, db = Some d /\ db_idna_valid d x = false.

(** A code point is of one of the scripts, or common, or inherited, or its
    script is not known, or no script is declared. *)
Definition of_script (script : N -> option string) (scripts : list string) (x : N) : Prop :=
  scripts = [] \/ script x = None \/
  exists s, script x = Some s /\ (In s scripts \/ s = "Zyyy" \/ s = "Zinh").

(** [gathers R l r]: [r] lists, in the order of [l], what [R] gives for the
    elements of [l] (nothing for some of them). *)
Inductive gathers {A B} (R : A -> option B -> Prop) : list A -> list B -> Prop :=
| ga_nil : gathers R [] []
| ga_some : forall a b l r, R a (Some b) -> gathers R l r -> gathers R (a :: l) (b :: r)
| ga_none : forall a l r, R a None -> gathers R l r -> gathers R (a :: l) r.

(** What is held against a code point or sequence: its first code point refused
    by the database; otherwise, that one of its code points is not in the
    validating repertoire. *)
Inductive objection (db : option unidb) (vr : option lgr) (c : cps) : option exn -> Prop :=
| ob_idna : forall x, first_such (bad db) c x -> objection db vr c (Some (CharInvalidIdnaProperty [x]))
| ob_absent : forall v x, (forall y, In y c -> ~ bad db y) -> vr = Some v -> In x c -> ~ present v [x] ->
    objection db vr c (Some (NotInRepertoire c))
| ob_none : (forall y, In y c -> ~ bad db y) -> (forall v y, vr = Some v -> In y c -> present v [y]) ->
    objection db vr c None.

(** What is held against a variant of [c]: only the first code point, of [c]
    or of the variant, refused by the database. *)
Inductive var_objection (db : option unidb) (c : cps) (v : variant) : option (variant * exn) -> Prop :=
| vo_idna : forall x, first_such (bad db) (c ++ v_cp v) x -> var_objection db c v (Some (v, CharInvalidIdnaProperty [x]))
| vo_none : (forall y, In y (c ++ v_cp v) -> ~ bad db y) -> var_objection db c v None.

(** A warning for what is not of the script. *)
Inductive script_objection (script : N -> option string) (scripts : list string) (c : cps) : option cps -> Prop :=
| so_out : forall x, In x c -> ~ of_script script scripts x -> script_objection script scripts c (Some c)
| so_in : (forall x, In x c -> of_script script scripts x) -> script_objection script scripts c None.

(** What an entry stands for: the code points of a range one by one. *)
Definition parts (ch : char) : list cps :=
  match ch_kind ch with KRange f l => map (fun x => [x]) (nrange f l) | _ => [ch_cp ch] end.

(** The issues to be reported for one entry. *)
Definition issue_for (db : option unidb) (vr : option lgr) (script : N -> option string) (scripts : list string)
  (ch : char) (i : rebuild_issue) : Prop :=
  ri_char i = ch /\
  gathers (objection db vr) (parts ch) (ri_errors i) /\
  gathers (script_objection script scripts) (parts ch) (ri_warnings i) /\
  gathers (var_objection db (ch_cp ch)) (get_variants ch) (ri_variants i).

(** The validating repertoire does not refuse to answer about a code point
    that the target database accepts. *)
Definition answers (db : option unidb) (vr : option lgr) : Prop :=
  forall x, vr_raises vr x -> bad db x.

Definition nothing (i : rebuild_issue) : Prop :=
  ri_errors i = [] /\ ri_warnings i = [] /\ ri_variants i = [].
