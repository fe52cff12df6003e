(** Model of lgr/action.py and of the action application of lgr/core.py.
    No proofs here.

    [rmatch name label ctx] is the oracle "rule [name] matches [label]" with
    [ctx = None] for a whole label rule and [Some (anchor, index)] for a context
    rule: Rule.matches (rule.py:121-195).  It is total: rules referenced by
    actions and contexts are assumed to be defined and to compile. *)
From Verif Require Import Base.
Open Scope string_scope.

Definition rule_oracle := string -> cps -> option (cps * nat) -> bool.

(** action.py:20-54 Action.__init__: empty type lists are stored as None. *)
Record action : Type := mkAction {
  a_disp : string;
  a_match : option string;
  a_not_match : option string;
  a_any : option (list string);
  a_all : option (list string);
  a_only : option (list string)
}.
Definition nonempty (l : option (list string)) : option (list string) :=
  match l with Some [] => None | x => x end.
Definition new_action (disp : string) (mat nomat : option string)
  (any all only : option (list string)) : res action :=
  match mat, nomat with
  | Some _, Some _ => Raise (LGRFormatException MATCH_NOT_MATCH)
  | _, _ => Ok (mkAction disp mat nomat (nonempty any) (nonempty all) (nonempty only))
  end.

(** A set of variant types: None stands for an untyped variant. *)
Definition dispset := list (option string).
Definition in_types (l : list string) (d : option string) : bool :=
  match d with None => false | Some s => memb String.eqb s l end.

(** action.py:56-138 Action.apply. *)
Definition act_rule (rmatch : rule_oracle) (a : action) (label : cps) : bool :=
  match a_match a with
  | Some r => rmatch r label None
  | None => match a_not_match a with
            | Some r => negb (rmatch r label None)
            | None => true
            end
  end.
Definition act_variant (a : action) (ds : dispset) (only : bool) : bool :=
  match a_any a with
  | Some l => existsb (in_types l) ds
  | None =>
    match a_all a with
    | Some l => negb (match ds with [] => true | _ => false end) && forallb (in_types l) ds
    | None =>
      match a_only a with
      | Some l => only && negb (match ds with [] => true | _ => false end) && forallb (in_types l) ds
      | None => true
      end
    end
  end.
Definition act_apply (rmatch : rule_oracle) (a : action) (label : cps) (ds : dispset)
  (only : bool) : option string :=
  if act_rule rmatch a label && act_variant a ds only then Some (a_disp a) else None.

(** core.py:53-62 DEFAULT_ACTIONS. *)
Definition default_actions : list action :=
  [ mkAction "invalid" None None (Some ["invalid"]) None None;
    mkAction "blocked" None None (Some ["blocked"]) None None;
    mkAction "allocatable" None None (Some ["allocatable"]) None None;
    mkAction "activated" None None None (Some ["activated"]) None;
    mkAction "valid" None None None None None ].

(** core.py:163-167 effective_actions. *)
Definition effective_actions (acts : list action) : list action := (acts ++ default_actions)%list.

(** core.py:1896-1913 _apply_actions: (disposition, index), (None, -1) when
    nothing triggers. *)
Fixpoint apply_actions_from (rmatch : rule_oracle) (l : list action) (idx : Z)
  (label : cps) (ds : dispset) (only : bool) : option string * Z :=
  match l with
  | [] => (None, (-1)%Z)
  | a :: l' =>
      match act_apply rmatch a label ds only with
      | Some d => (Some d, idx)
      | None => apply_actions_from rmatch l' (idx + 1)%Z label ds only
      end
  end.
Definition apply_actions (rmatch : rule_oracle) (acts : list action) (label : cps)
  (ds : dispset) (only : bool) : option string * Z :=
  apply_actions_from rmatch (effective_actions acts) 0%Z label ds only.
