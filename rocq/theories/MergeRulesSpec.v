(** When two sets of rules and classes are the same but for the names, and when
    a merge gives every name one meaning only. *)
From Coq Require Import Ascii.
From Verif Require Import Base ClassModel ClassSpec RuleModel RuleSpec MergeRulesModel.
Open Scope string_scope.
Open Scope list_scope.

(** ** Names *)
Definition starts (s n : string) : Prop := exists r, n = (s ++ "-" ++ r)%string.
(** The name of something of a script in the merged LGR. *)
Definition in_set (s n : string) : string := (s ++ "-" ++ n)%string.
(** Names of the two scripts are never the same. *)
Definition scripts_apart (s t : string) : Prop := ~ starts s (t ++ "-") /\ ~ starts t (s ++ "-").
(** The rule of the Maximal Starting Repertoire, and names that begin like it. *)
Definition msr : string := "leading-combining-mark".
Definition like_msr (n : string) : Prop := exists r, n = (msr ++ r)%string.

(** Names a rule refers to: rules, classes, tags. *)
Fixpoint class_tags (c : cls) : list string :=
  match c with
  | ClPlain _ _ (Some t) _ _ => [t]
  | ClPlain _ _ None _ _ => []
  | ClComb _ _ ch => flat_map class_tags ch
  end.
Fixpoint matcher_refs (m : matcher) : list string :=
  match m with
  | MClass c _ => class_refs c
  | MChoice _ l | MAhead l | MBehind l => flat_map matcher_refs l
  | MRule r _ => rule_refs r
  | _ => []
  end
with rule_refs (r : rule) : list string :=
  match r with Rule _ _ b ch => match b with Some b => [b] | None => [] end ++ flat_map matcher_refs ch end.
Definition rule_tags (r : rule) : list string := flat_map class_tags (classes_of_rule r).

Definition code_points_of (t : string) (tags : dict string (list N)) (x : N) : Prop :=
  exists l, dget String.eqb t tags = Some l /\ In x l.

(** A reference the merge follows: to a rule or class, not empty, not the name
    of a tag class, without colon and not beginning like the common rule. *)
Definition followed (b : string) : Prop := b <> "" /\ no_colon b /\ ~ tag_like b /\ ~ like_msr b.
(** The tag [t] of a member stands for the same code points in the merged LGR:
    under the name with the script, or under its own name if it has a colon. *)
Definition tag_kept (s : string) (own tags : dict string (list N)) (t : string) : Prop :=
  t <> "" /\
  forall n, (no_colon t -> n = in_set s t) -> (~ no_colon t -> n = t) ->
  forall x, code_points_of t own x <-> code_points_of n tags x.

(** Member [m] of the set [l], merged into an LGR with the tags [tags]. *)
Record clear_set (l : list smember) (tags : dict string (list N)) (m : smember) : Prop := mkClear {
  cs_member : In m l;
  cs_scripts : forall x, In x l -> x = m \/ scripts_apart (sm_script x) (sm_script m);
  cs_common : scripts_apart "Common" (sm_script m);
  cs_hash : forall x, In x l -> forall s, sm_script x <> String "#" s;
  cs_colon : no_colon (sm_script m);
  cs_keys : NoDup (dkeys tags) /\ NoDup (dkeys (sm_tags m));
  (** The classes of the member. *)
  cs_classes : NoDup (map cls_name (sm_classes m));
  cs_class_name : forall c, In c (sm_classes m) -> exists n, cls_name c = Some n /\ n <> "" /\ no_colon n /\ ~ tag_like n;
  cs_class_refs : forall c b, In c (sm_classes m) -> In b (class_refs c) -> b <> "" /\ no_colon b /\ ~ tag_like b;
  cs_class_tags : forall c t, In c (sm_classes m) -> In t (class_tags c) -> tag_kept (sm_script m) (sm_tags m) tags t;
  (** The classes of all members. *)
  cs_other : forall x c, In x l -> In c (sm_classes x) -> exists n, cls_name c = Some n /\ n <> "" /\ ~ tag_like n;
  (** The rules. *)
  cs_rules : NoDup (map r_name (sm_rules m));
  cs_rule_name : forall x r, In x l -> In r (sm_rules x) -> exists n, r_name r = Some n /\ n <> "";
  cs_rule_refs : forall r b, In r (sm_rules m) -> r_name r <> Some msr -> In b (rule_refs r) -> followed b;
  cs_rule_tags : forall r t, In r (sm_rules m) -> r_name r <> Some msr -> In t (rule_tags r) -> tag_kept (sm_script m) (sm_tags m) tags t;
  (** Rules shared by several scripts have names of their own. *)
  cs_asked_name : forall x s n, In x l -> In (s, n) (sm_asked x) -> n <> "";
  cs_asked : forall x s n, In x l -> In (s, n) (sm_asked x) -> forall b,
    (exists r, In r (sm_rules m) /\ (r_name r = Some b \/ In b (rule_refs r))) -> in_set s n <> in_set (sm_script m) b
}.

(** ** The same but for the names *)
Definition both {A B} (R : A -> B -> Prop) (a : option A) (b : option B) : Prop :=
  match a, b with Some x, Some y => R x y | None, None => True | _, _ => False end.
Section Like.
  (** How rules, classes and tags correspond. *)
  Variables Rr Rc Rt : string -> string -> Prop.
  Inductive like_class : cls -> cls -> Prop :=
  | like_plain : forall n n' b b' t t' p l, both Rc b b' -> both Rt t t' -> like_class (ClPlain n b t p l) (ClPlain n' b' t' p l)
  | like_comb : forall n n' op l l', Forall2 like_class l l' -> like_class (ClComb n op l) (ClComb n' op l').
  Inductive like_matcher : matcher -> matcher -> Prop :=
  | like_it : forall m, match m with MClass _ _ | MChoice _ _ | MAhead _ | MBehind _ | MRule _ _ => False | _ => True end -> like_matcher m m
  | like_mclass : forall c c' k, like_class c c' -> like_matcher (MClass c k) (MClass c' k)
  | like_choice : forall k l l', Forall2 like_matcher l l' -> like_matcher (MChoice k l) (MChoice k l')
  | like_ahead : forall l l', Forall2 like_matcher l l' -> like_matcher (MAhead l) (MAhead l')
  | like_behind : forall l l', Forall2 like_matcher l l' -> like_matcher (MBehind l) (MBehind l')
  | like_mrule : forall r r' k, like_rule r r' -> like_matcher (MRule r k) (MRule r' k)
  with like_rule : rule -> rule -> Prop :=
  | like_rule_is : forall i i' n n' b b' l l', both Rr b b' -> Forall2 like_matcher l l' -> like_rule (Rule i n b l) (Rule i' n' b' l').
End Like.

(** The same rules as other objects, as when a document is parsed once more. *)
Definition reread (rules rules' : rtable) : Prop :=
  forall n, both (like_rule eq eq eq) (dget String.eqb n rules) (dget String.eqb n rules').
