(** What the elements of a <rules> section say (RFC 7940, sections 6 and 7),
    without a reader. *)
From Coq Require Import Ascii.
From Verif Require Import Base UtilsModel ClassModel ClassSpec RuleModel RuleSpec ActionModel Rfc7940Model RulesXmlModel.
Open Scope string_scope.
Open Scope list_scope.

(** An element of the LGR namespace. *)
Definition lgr_elem (n : string) (e : xelem) : Prop := x_space e = LgrNs /\ x_name e = n.
Definition no_text (e : xelem) : Prop := x_text e = None \/ x_text e = Some [].

(** ** Classes *)
(** The text [w] is a hexadecimal number, as Python reads it. *)
Definition hex (w : cps) (x : N) : Prop := py_int 16 w = Ok (Z.of_N x).
(** A word of the text of a class: a code point, or a range "first-last". *)
Inductive item_is : cps -> list N -> Prop :=
| item_one : forall w x, ~ In 45%N w -> hex w x -> item_is w [x]
| item_range : forall v w a b, ~ In 45%N v -> ~ In 45%N w -> hex v a -> hex w b -> item_is (v ++ 45%N :: w) (nrange a b).
(** The code points an element lists. *)
Inductive lists_cps (e : xelem) : list N -> Prop :=
| lists_char : forall s l, lgr_elem "char" e -> x_get e "cp" = Some s -> Forall2 hex (split_ws (txt s)) l -> lists_cps e l
| lists_range : forall s s' a b, lgr_elem "range" e -> x_get e "first-cp" = Some s -> x_get e "last-cp" = Some s' ->
    hex (txt s) a -> hex (txt s') b -> lists_cps e (nrange a b)
| lists_text : forall t ls, lgr_elem "class" e -> x_text e = Some t -> Forall2 item_is (split_ws t) ls -> lists_cps e (List.concat ls).
(** The code points of a class: those of its children or, if it has none, of its
    text. *)
Inductive content (e : xelem) : list N -> Prop :=
| content_none : x_children e = [] -> no_text e -> content e []
| content_text : forall l, x_children e = [] -> ~ no_text e -> lists_cps e l -> content e l
| content_elems : forall ls, x_children e <> [] -> Forall2 lists_cps (x_children e) ls -> content e (List.concat ls).

Definition comb_name (op : comb) : string :=
  match op with
  | Complement => "complement" | Union => "union" | Intersection => "intersection"
  | Difference => "difference" | SymmetricDifference => "symmetric-difference"
  end.
(** How many members a combination may have. *)
Definition room (op : comb) (n : nat) : Prop :=
  match op with Union => True | Complement => (n <= 1)%nat | _ => (n <= 2)%nat end.
(** The element [e] says class [c]. *)
Inductive class_of : xelem -> cls -> Prop :=
| says_plain : forall e l s, lgr_elem "class" e -> x_get e "by-ref" = None ->
    content e l -> NoDup s -> (forall x, In x s <-> In x l) ->
    class_of e (ClPlain (x_get e "name") None (x_get e "from-tag") (x_get e "property") s)
| says_ref : forall e b, lgr_elem "class" e -> x_get e "by-ref" = Some b -> x_get e "name" = None ->
    x_get e "from-tag" = None -> x_get e "property" = None -> (x_get e "ref" = None \/ x_get e "ref" = Some "") ->
    x_children e = [] -> no_text e -> class_of e (ClPlain None (Some b) None None [])
| says_comb : forall e op l, lgr_elem (comb_name op) e -> Forall2 class_of (x_children e) l -> room op (length l) ->
    class_of e (ClComb (x_get e "name") op l).
(** The same class, but for the order in which its code points are listed. *)
Inductive same_class : cls -> cls -> Prop :=
| same_plain : forall n b t p l l', (forall x, In x l <-> In x l') -> same_class (ClPlain n b t p l) (ClPlain n b t p l')
| same_comb : forall n op l l', Forall2 same_class l l' -> same_class (ClComb n op l) (ClComb n op l').

(** ** Rules *)
Definition digit (c : ascii) (d : nat) : Prop := (d <= 9)%nat /\ nat_of_ascii c = (48 + d)%nat.
Inductive decimal : string -> nat -> Prop :=
| dec_one : forall c d, digit c d -> decimal (String c EmptyString) d
| dec_more : forall s n c d, decimal s n -> digit c d -> decimal (s ++ String c EmptyString) (n * 10 + d).
(** The count an attribute stands for. *)
Inductive well_count : string -> count -> Prop :=
| count_exactly : forall s n, decimal s n -> well_count s (CExactly n)
| count_at_least : forall s n, decimal s n -> well_count (s ++ "+") (CAtLeast n)
| count_between : forall s s' n m, decimal s n -> decimal s' m -> well_count (s ++ ":" ++ s') (CBetween n m).
Inductive count_is : option string -> option count -> Prop :=
| no_count : count_is None None
| empty_count : count_is (Some "") None
| a_count : forall s k, well_count s k -> count_is (Some s) (Some k)
| odd_count : forall s, s <> "" -> (forall k, ~ well_count s k) -> count_is (Some s) (Some (COther s)).

Definition class_names : list string :=
  ["class"; "complement"; "union"; "intersection"; "difference"; "symmetric-difference"].
Definition rule_names : list string :=
  ["anchor"; "any"; "char"; "choice"; "end"; "look-ahead"; "look-behind"; "start"; "rule"] ++ class_names.
Definition unknown (names : list string) (e : xelem) : Prop := x_space e <> LgrNs \/ ~ In (x_name e) names.

(** The element [e] says [m]; the children [l] say the list [ms], those of
    unknown name saying nothing.  Identities of rule objects are left open. *)
Inductive matcher_of : xelem -> matcher -> Prop :=
| says_anchor : forall e, lgr_elem "anchor" e -> matcher_of e MAnchor
| says_start : forall e, lgr_elem "start" e -> matcher_of e MStart
| says_end : forall e, lgr_elem "end" e -> matcher_of e MEnd
| says_any : forall e k, lgr_elem "any" e -> count_is (x_get e "count") k -> matcher_of e (MAny k)
| says_char : forall e l k, lgr_elem "char" e -> lists_cps e l -> count_is (x_get e "count") k -> matcher_of e (MChar l k)
| says_class : forall e c k, class_of e c -> count_is (x_get e "count") k -> matcher_of e (MClass c k)
| says_choice : forall e l k, lgr_elem "choice" e -> matchers_of (x_children e) l -> count_is (x_get e "count") k ->
    matcher_of e (MChoice k l)
| says_ahead : forall e l, lgr_elem "look-ahead" e -> matchers_of (x_children e) l -> matcher_of e (MAhead l)
| says_behind : forall e l, lgr_elem "look-behind" e -> matchers_of (x_children e) l -> matcher_of e (MBehind l)
| says_rule : forall e r k, rule_of e r -> count_is (x_get e "count") k -> matcher_of e (MRule r k)
with matchers_of : list xelem -> list matcher -> Prop :=
| say_nothing : matchers_of [] []
| say_unknown : forall e l ms, unknown rule_names e -> matchers_of l ms -> matchers_of (e :: l) ms
| say_more : forall e l m ms, matcher_of e m -> matchers_of l ms -> matchers_of (e :: l) (m :: ms)
with rule_of : xelem -> rule -> Prop :=
| says_rule_of : forall e id l, lgr_elem "rule" e -> x_get e "by-ref" = None -> matchers_of (x_children e) l ->
    rule_of e (Rule id (x_get e "name") None l)
| says_rule_ref : forall e id b, lgr_elem "rule" e -> x_get e "by-ref" = Some b -> x_get e "name" = None ->
    Forall (unknown rule_names) (x_children e) -> rule_of e (Rule id None (Some b) []).

(** The same rule, but for identities and the order of listed code points. *)
Inductive same_matcher : matcher -> matcher -> Prop :=
| same_it : forall m, match m with MClass _ _ | MChoice _ _ | MAhead _ | MBehind _ | MRule _ _ => False | _ => True end -> same_matcher m m
| same_mclass : forall c c' k, same_class c c' -> same_matcher (MClass c k) (MClass c' k)
| same_choice : forall k l l', Forall2 same_matcher l l' -> same_matcher (MChoice k l) (MChoice k l')
| same_ahead : forall l l', Forall2 same_matcher l l' -> same_matcher (MAhead l) (MAhead l')
| same_behind : forall l l', Forall2 same_matcher l l' -> same_matcher (MBehind l) (MBehind l')
| same_mrule : forall r r' k, same_rule r r' -> same_matcher (MRule r k) (MRule r' k)
with same_rule : rule -> rule -> Prop :=
| same_rule_is : forall i i' n b l l', Forall2 same_matcher l l' -> same_rule (Rule i n b l) (Rule i' n b l').

(** An element of unknown name somewhere below a rule, where it is passed over. *)
Inductive passes_over : xelem -> Prop :=
| here_below : forall e x, lgr_elem "rule" e \/ lgr_elem "choice" e \/ lgr_elem "look-ahead" e \/ lgr_elem "look-behind" e ->
    In x (x_children e) -> unknown rule_names x \/ passes_over x -> passes_over e.

(** ** Actions *)
(** Words separated by single spaces. *)
Definition words_of (o : option string) (l : list string) : Prop :=
  match o with
  | None => l = []
  | Some s => (s = "" /\ l = []) \/ (s <> "" /\ l <> [] /\ txt s = join [32%N] (map txt l) /\ Forall (fun w => ~ In 32%N (txt w)) l)
  end.
Definition listed (o : option (list string)) (l : list string) : Prop :=
  match o with None => l = [] | Some l' => l = l' /\ l <> [] end.
Definition action_of (e : xelem) (a : action) : Prop :=
  (x_get e "match" = None \/ x_get e "not-match" = None) /\
  a_disp a = match x_get e "disp" with Some d => d | None => "" end /\
  a_match a = x_get e "match" /\ a_not_match a = x_get e "not-match" /\
  (exists l, words_of (x_get e "any-variant") l /\ listed (a_any a) l) /\
  (exists l, words_of (x_get e "all-variants") l /\ listed (a_all a) l) /\
  (exists l, words_of (x_get e "only-variants") l /\ listed (a_only a) l).

(** ** The section *)
Definition is_lgr (e : xelem) : bool := match x_space e with LgrNs => true | _ => false end.
Definition named_in (names : list string) (e : xelem) : bool := (is_lgr e && existsb (String.eqb (x_name e)) names)%bool.
Definition class_elems (l : list xelem) : list xelem := filter (named_in class_names) l.
Definition rule_elems (l : list xelem) : list xelem := filter (named_in ["rule"]) l.
Definition action_elems (l : list xelem) : list xelem := filter (named_in ["action"]) l.
Definition section_names : list string := class_names ++ ["rule"; "action"].
(** The last element of a list that carries the name [n]. *)
Definition last_named (n : string) (l : list xelem) (e : xelem) : Prop :=
  x_get e "name" = Some n /\ exists pre post, l = pre ++ e :: post /\ forall x, In x post -> x_get x "name" <> Some n.
(** An element that says something. *)
Definition readable_elem (e : xelem) : Prop :=
  (exists c, class_of e c) \/ (exists r, rule_of e r) \/ (lgr_elem "action" e /\ exists a, action_of e a) \/ unknown section_names e.
(** The table [t] holds what it held in [t0], and under the name of each of the
    elements [l] what the last of that name says. *)
Definition defines {A} (says : xelem -> A -> Prop) (t0 t : dict string A) (l : list xelem) : Prop :=
  forall n, (exists e c, last_named n l e /\ says e c /\ dget String.eqb n t = Some c) \/
            ((forall e, In e l -> x_get e "name" <> Some n) /\ dget String.eqb n t = dget String.eqb n t0).

(** Every element belongs to the LGR namespace or to another one. *)
Inductive qualified : xelem -> Prop :=
| is_qualified : forall e, x_space e <> NoNs -> Forall qualified (x_children e) -> qualified e.

(** Reading takes notice of an element of unknown name in the section or, below
    a rule, where rules have their parts. *)
Definition noticed (x : xelem) : Prop := unknown section_names x \/ (lgr_elem "rule" x /\ passes_over x).
Definition flagged (r : results) : results := dset String.eqb "parse_xml" false r.
(** The report is changed just if there is something to notice. *)
Definition reports_of (noticed : Prop) (s s' : rread) : Prop :=
  (noticed /\ rd_results s' = flagged (rd_results s)) \/ (~ noticed /\ rd_results s' = rd_results s).
(** Each class and each rule is valid given the classes and rules before it. *)
Definition each_valid (look0 : table) (rules0 : rtable) (l : list xelem) : Prop :=
  forall pre e post look rules, l = pre ++ e :: post ->
    defines class_of look0 look (class_elems pre) -> defines rule_of rules0 rules (rule_elems pre) ->
    (forall c, class_of e c -> valid_class look true c) /\
    (forall r, rule_of e r -> valid_rule look rules true r).
(** The same patterns are cached, for the same rule objects. *)
Definition alike (s s' : rread) : Prop := rd_next s = rd_next s' /\ rd_cache s = rd_cache s'.
(** No class takes a name already in use, or that of the class of a tag. *)
Definition new_names (t : table) (l : list xelem) : Prop :=
  forall pre e post n, class_elems l = pre ++ e :: post -> x_get e "name" = Some n ->
    dget String.eqb n t = None /\ ~ tag_like n /\ forall x, In x pre -> x_get x "name" <> Some n.
(** The same identities and reports. *)
Definition level (s s' : rread) : Prop := rd_next s = rd_next s' /\ rd_results s = rd_results s'.
