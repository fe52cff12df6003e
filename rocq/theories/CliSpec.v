(** Specification of what the tools lgr_validate and lgr_cli say of a label. *)
From Verif Require Import Base CharModel RepSpec ActionModel ActionSpec LabelModel LabelSpec CollisionModel CollisionSpec AnnotateModel AnnotateSpec CliModel.
Open Scope string_scope.
Open Scope list_scope.

(** A line of a label list that stands for the label it spells. *)
Definition plain_text (l : cps) : Prop :=
  l <> [] /\ content_of l l /\ ~ a_label l /\ ~ In 32 l /\ ~ mentions_u_plus l.

Section Answer.
  Variable index : cps -> res cps.
  Variable set_labels : list cps.
  Variable label : cps.
  (** No two labels of the set collide. *)
  Definition clean_set : Prop := forall a b, In a set_labels -> In b set_labels -> ~ collide index a b.
  (** Two different labels among these have the index. *)
  Definition shared (i : cps) : Prop :=
    exists a b, In a (label :: set_labels) /\ In b (label :: set_labels) /\ a <> b /\ index a = Ok i /\ index b = Ok i.
  (** What must be answered for an eligible label. *)
  Inductive answer : vline -> Prop :=
  | an_in : In label set_labels -> answer VInSet
  | an_collides : forall x, ~ In label set_labels -> clean_set -> In x set_labels -> collide index label x -> answer (VCollides x)
  | an_none : ~ In label set_labels -> clean_set -> (forall x, In x set_labels -> ~ collide index label x) -> answer VNone
  | an_many : forall i j, ~ In label set_labels -> i <> j -> shared i -> shared j -> answer (VTrouble ManyIndexes)
  | an_lost : forall i, ~ In label set_labels -> shared i -> (forall j, shared j -> j = i) -> index label <> Ok i ->
      answer (VTrouble LabelLost)
  | an_several : forall i a b, ~ In label set_labels -> (forall j, shared j -> j = i) -> index label = Ok i ->
      In a set_labels -> In b set_labels -> a <> b -> index a = Ok i -> index b = Ok i -> answer (VTrouble ManyInSet).
End Answer.
Definition is_trouble (v : vline) : bool := match v with VTrouble _ => true | _ => false end.

(** A code point at fault, with the names of its rules. *)
Definition fault_shown (p : N * option (list (option string))) (q : N * option (list string)) : Prop :=
  fst q = fst p /\ match snd p, snd q with
                   | None, None => True
                   | Some l, Some names => l = map Some names
                   | _, _ => False
                   end.

(** The lines on a label that is not eligible: all code points that could be
    matched, or none when an action refused the label. *)
Definition refused_lines (rm : rule_oracle) (r : repertoire) (label : cps) (by_action : bool) (tail : list vline) : Prop :=
  exists chars inv, longest_match rm r label 0 chars inv /\
    (by_action = true <-> inv = []) /\
    (inv = [] -> tail = [VValidPoints []]) /\
    (inv <> [] -> exists k, Forall2 fault_shown inv k /\ tail = [VValidPoints (spelled chars); VInvalidPoints k]).

(** The set labels: those kept, the lines on those that cannot be read. *)
Inductive set_kept (rm : rule_oracle) (r : repertoire) : list reading -> list cps -> list vline -> Prop :=
| sk_end : set_kept rm r [] [] []
| sk_bad : forall x l k ns, rd_valid x = false -> set_kept rm r l k ns ->
    set_kept rm r (x :: l) k (VSetRefused (rd_text x) (rd_error x) :: ns)
| sk_in : forall x l k ns chars, rd_valid x = true -> longest_match rm r (rd_label x) 0 chars [] ->
    set_kept rm r l k ns -> set_kept rm r (x :: l) (rd_label x :: k) ns.
(** A set label with a code point at fault. *)
Definition outside (rm : rule_oracle) (r : repertoire) (x : reading) : Prop :=
  rd_valid x = true /\ exists chars inv, longest_match rm r (rd_label x) 0 chars inv /\ inv <> [].

(** The action that the words "Action[k]" or "DefaultAction[k]" denote. *)
Definition denotes (own : list action) (due : bool * Z) (a : action) : Prop :=
  exists k, snd due = Z.of_nat k /\ nth_error (if fst due then default_actions else own) k = Some a.

(** The line on one listed label. *)
Definition variant_shown (own : nat) (z : listed) (c : cline) : Prop :=
  exists types due, c = CVariantLine (ls_cp z) types (ls_disp z) due /\
    (forall t, In (Some t) (ls_types z) <-> In t types) /\ NoDup types /\
    due = if (Z.of_nat own <? ls_idx z)%Z then (true, (ls_idx z - Z.of_nat own)%Z) else (false, ls_idx z).
