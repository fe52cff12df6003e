(** Model of the <rules> section of LGR documents: reading (lgr/parser/
    xml_parser.py) and writing (lgr/parser/xml_serializer.py) it.  No proofs
    here.

    Simplifications: comments and reference lists of classes, rules and actions
    are left out of the objects (a reference list still forbids by-ref); an
    action without disp has the empty one; log messages are dropped.  The XML
    library's trees are given by namespace, name, attributes, text and
    children; text that follows an element is never looked at and left out.
    Comments are removed by the XML library (xml_parser.py:104-107).  An
    exception ends the reading, so what was read before it is dropped.  A
    negative number is a ValueError at once. *)
From Verif Require Import Base UtilsModel ClassModel RuleModel ActionModel Rfc7940Model SerialModel.
From Coq Require Import Ascii.
Open Scope string_scope.
Open Scope list_scope.

(** ** XML elements *)
Inductive xspace := LgrNs | NoNs | OtherNs (uri : string).
Inductive xelem : Type :=
| XElem (space : xspace) (name : string) (attrs : dict string string) (text : option cps) (children : list xelem).
Definition x_space (e : xelem) : xspace := match e with XElem s _ _ _ _ => s end.
Definition x_name (e : xelem) : string := match e with XElem _ n _ _ _ => n end.
Definition x_attrs (e : xelem) : dict string string := match e with XElem _ _ a _ _ => a end.
Definition x_text (e : xelem) : option cps := match e with XElem _ _ _ t _ => t end.
Definition x_children (e : xelem) : list xelem := match e with XElem _ _ _ _ c => c end.
(** elem.get(name, None) *)
Definition x_get (e : xelem) (k : string) : option string := dget String.eqb k (x_attrs e).
(** elem.tag == X_TAG: xml_parser.py:68-97 *)
Definition has_tag (n : string) (e : xelem) : bool :=
  match x_space e with LgrNs => String.eqb (x_name e) n | _ => false end.

(** xml_parser.py:88-97, 474-480: the classes of COMBINATOR_TAGS. *)
Definition combinator (e : xelem) : option comb :=
  if has_tag "complement" e then Some Complement
  else if has_tag "union" e then Some Union
  else if has_tag "intersection" e then Some Intersection
  else if has_tag "difference" e then Some Difference
  else if has_tag "symmetric-difference" e then Some SymmetricDifference
  else None.
Definition class_tag (e : xelem) : bool :=
  if has_tag "class" e then true else match combinator e with Some _ => true | None => false end.

(** ** Classes *)

(** xml_parser.py:535-542: one word of the text of a class. *)
Definition text_item (w : cps) : res cps :=
  if memb N.eqb 45 w then
    bind (mapM_res parse_cp (split_on 45 w)) (fun l =>
    match l with [a; b] => Ok (nrange a b) | _ => Raise ValueError end)
  else bind (parse_cp w) (fun c => Ok [c]).
(** xml_parser.py:532-543 *)
Definition class_text (t : cps) : res cps :=
  bind (mapM_res text_item (split_ws (strip t))) (fun l => Ok (List.concat l)).
Definition needs_attr (o : option string) : res cps := match o with Some s => Ok (txt s) | None => Raise TypeError end.
(** xml_parser.py:519-543 cp_or_sequence_from_class; None when no branch
    applies. *)
Definition elem_cps (e : xelem) : res (option cps) :=
  if has_tag "char" e then
    bind (needs_attr (x_get e "cp")) (fun s => bind (parse_cps s) (fun l => Ok (Some l)))
  else if has_tag "range" e then
    bind (needs_attr (x_get e "first-cp")) (fun s => bind (parse_cp s) (fun a =>
    bind (needs_attr (x_get e "last-cp")) (fun s' => bind (parse_cp s') (fun b =>
    Ok (Some (nrange a b))))))
  else if has_tag "class" e then
    match x_text e with
    | Some t => bind (class_text t) (fun l => Ok (Some l))
    | None => Raise TypeError
    end
  else Ok None.
(** cls.add_codepoint(cp_or_sequence_from_class(e)): classes.py:96-108; a set
    cannot be updated with None. *)
Definition add_elem (c : cls) (e : xelem) : res cls :=
  bind (elem_cps e) (fun o =>
  match o with
  | Some l => add_class_codepoints c l
  | None => match cls_by_ref c with
            | Some _ => Raise (LGRFormatException BY_REF_AND_OTHER)
            | None => Raise TypeError
            end
  end).
Fixpoint add_elems (c : cls) (l : list xelem) : res cls :=
  match l with [] => Ok c | e :: l' => bind (add_elem c e) (fun c1 => add_elems c1 l') end.
(** xml_parser.py:451-489 _parse_class.  Any other element is reported, and
    then the result is missing: TypeError stands for UnboundLocalError. *)
Fixpoint parse_class (e : xelem) : res cls :=
  match e with
  | XElem _ _ _ tx ch =>
      if has_tag "class" e then
        bind (new_class (x_get e "name") (x_get e "by-ref") (x_get e "from-tag") (x_get e "property")
                        (match attr_words (x_get e "ref") with [] => false | _ => true end) []) (fun c =>
        bind (match ch, tx with
              | [], Some (_ :: _) => add_elem c e
              | _, _ => Ok c
              end) (fun c1 => add_elems c1 ch))
      else
        match combinator e with
        | Some op =>
            (fix all (l : list xelem) (c : cls) : res cls :=
               match l with
               | [] => Ok c
               | x :: l' => bind (parse_class x) (fun k => bind (add_child c k) (fun c1 => all l' c1))
               end) ch (ClComb (x_get e "name") op [])
        | None => Raise TypeError
        end
  end.

(** ** Rules *)

Fixpoint digits (s : string) (acc : nat) : option nat :=
  match s with
  | EmptyString => Some acc
  | String c s' =>
      let n := Ascii.nat_of_ascii c in
      if (Nat.leb 48 n && Nat.leb n 57)%bool then digits s' (acc * 10 + (n - 48))%nat else None
  end.
Definition number (s : string) : option nat := match s with EmptyString => None | _ => digits s 0 end.
(** s without its last character, if that is a plus sign *)
Fixpoint drop_plus (s : string) : option string :=
  match s with
  | EmptyString => None
  | String c EmptyString => if Ascii.eqb c "+"%char then Some EmptyString else None
  | String c s' => match drop_plus s' with Some r => Some (String c r) | None => None end
  end.
(** matcher.py:248-270: the count attribute; an empty one is none. *)
Definition read_count (o : option string) : option count :=
  match o with
  | None => None
  | Some EmptyString => None
  | Some s =>
      Some match split_colon s with
           | [a; b] => match number a, number b with Some n, Some m => CBetween n m | _, _ => COther s end
           | [_] => match drop_plus s with
                    | Some a => match number a with Some n => CAtLeast n | None => COther s end
                    | None => match number s with Some n => CExactly n | None => COther s end
                    end
           | _ => COther s
           end
  end.

(** What reading rules changes: the identity of the next rule object, the
    caches of the rules and the report on the document. *)
Record rread := mkRead { rd_next : nat; rd_cache : cache; rd_results : results }.
Definition unhandled (s : rread) : rread := mkRead (rd_next s) (rd_cache s) (report_error (rd_results s) "parse_xml").

Section ParseRule.
  Variable db : option unidb.
  Variable look : table.
  Variable rules : rtable.
  Variable fuel : nat.

  (** xml_parser.py:371-373 and rule.py:104-119 precalculate_patterns.  No
      child of a rule is a Rule (they are matchers), so the loop over them does
      nothing. *)
  Definition precalculate (r : rule) (s : rread) : res rread :=
    match db with
    | None => Ok s
    | Some u =>
        let '(k1, x) := rpat u look rules fuel true r (rd_cache s) in
        bind x (fun _ =>
        let '(k2, y) := rpat u look rules fuel false r k1 in
        bind y (fun _ => Ok (mkRead (rd_next s) k2 (rd_results s))))
    end.

  (** xml_parser.py:357-375 _parse_rule and 377-427 _parse_rule_helper: what
      the helper adds, None for an element it does not handle.  A rule is read
      by _parse_rule.  [refuse]: the parent is a by-ref rule, to which nothing
      can be added (rule.py:58-62). *)
  Fixpoint parse_helper (e : xelem) (s : rread) : res (rread * option matcher) :=
    match e with
    | XElem _ _ _ _ ch =>
        let k := read_count (x_get e "count") in
        let items :=
          (fix items (refuse : bool) (l : list xelem) (s : rread) : res (rread * list matcher) :=
             match l with
             | [] => Ok (s, [])
             | x :: l' =>
                 bind (parse_helper x s) (fun p =>
                 match snd p with
                 | Some m =>
                     if refuse then Raise (LGRFormatException BY_REF_AND_OTHER)
                     else bind (items refuse l' (fst p)) (fun q => Ok (fst q, m :: snd q))
                 | None => items refuse l' (fst p)
                 end)
             end) in
        if has_tag "anchor" e then Ok (s, Some MAnchor)
        else if has_tag "any" e then Ok (s, Some (MAny k))
        else if has_tag "char" e then
          bind (elem_cps e) (fun o => Ok (s, Some (MChar (match o with Some l => l | None => [] end) k)))
        else if has_tag "choice" e then bind (items false ch s) (fun p => Ok (fst p, Some (MChoice k (snd p))))
        else if has_tag "end" e then Ok (s, Some MEnd)
        else if has_tag "look-ahead" e then bind (items false ch s) (fun p => Ok (fst p, Some (MAhead (snd p))))
        else if has_tag "look-behind" e then bind (items false ch s) (fun p => Ok (fst p, Some (MBehind (snd p))))
        else if has_tag "start" e then Ok (s, Some MStart)
        else if has_tag "rule" e then
          bind (new_rule (rd_next s) (x_get e "name") (x_get e "by-ref")) (fun r =>
          bind (items (match r_by_ref r with Some _ => true | None => false end) ch
                      (mkRead (S (rd_next s)) (rd_cache s) (rd_results s))) (fun p =>
          let r1 := Rule (r_id r) (r_name r) (r_by_ref r) (snd p) in
          bind (precalculate r1 (fst p)) (fun s1 => Ok (s1, Some (MRule r1 k)))))
        else if class_tag e then bind (parse_class e) (fun c => Ok (s, Some (MClass c k)))
        else Ok (unhandled s, None)
    end.
  (** xml_parser.py:357-375 _parse_rule, of a <rule> *)
  Definition parse_rule (e : xelem) (s : rread) : res (rread * rule) :=
    bind (parse_helper e s) (fun p =>
    match snd p with
    | Some (MRule r _) => Ok (fst p, r)
    | _ => Raise TypeError
    end).
End ParseRule.

(** xml_parser.py:429-449 _parse_action *)
Definition parse_action (e : xelem) : res action :=
  new_action (match x_get e "disp" with Some d => d | None => "" end)
             (x_get e "match") (x_get e "not-match")
             (Some (attr_words (x_get e "any-variant"))) (Some (attr_words (x_get e "all-variants")))
             (Some (attr_words (x_get e "only-variants"))).

(** ** The section *)

(** The rules of an LGR: core.py:120-137. *)
Record ruleset := mkRules {
  ru_classes : table;
  ru_class_names : list (option string);
  ru_rules : rtable;
  ru_rule_names : list (option string);
  ru_actions : list action;
  ru_classes_xml : list xelem;
  ru_rules_xml : list xelem;
  ru_actions_xml : list xelem
}.
(** xml_parser.py:570-592 drop_ns *)
Fixpoint drop_ns (e : xelem) : xelem :=
  match e with
  | XElem s n a t ch => XElem (match s with LgrNs => NoNs | _ => s end) n a t (map drop_ns ch)
  end.

(** xml_parser.py:336-340 and core.py:1002-1019 *)
Definition read_class (force : bool) (e : xelem) (g : ruleset) (s : rread) : res (ruleset * rread) :=
  bind (parse_class e) (fun c =>
  let '(t, x) := add_class (ru_classes g) c force in
  bind x (fun _ =>
  Ok (mkRules t (ru_class_names g ++ [cls_name c]) (ru_rules g) (ru_rule_names g) (ru_actions g)
              (ru_classes_xml g ++ [drop_ns e]) (ru_rules_xml g) (ru_actions_xml g), s))).
(** xml_parser.py:341-345 and core.py:969-988 *)
Definition read_rule (db : option unidb) (fuel : nat) (force : bool) (e : xelem) (g : ruleset) (s : rread)
  : res (ruleset * rread) :=
  bind (parse_rule db (ru_classes g) (ru_rules g) fuel e s) (fun p =>
  let '(t, x) := add_rule (ru_classes g) (ru_rules g) (snd p) force in
  bind x (fun _ =>
  Ok (mkRules (ru_classes g) (ru_class_names g) t (ru_rule_names g ++ [r_name (snd p)]) (ru_actions g)
              (ru_classes_xml g) (ru_rules_xml g ++ [drop_ns e]) (ru_actions_xml g), fst p))).
(** xml_parser.py:346-350 and core.py:990-1000 *)
Definition read_action (e : xelem) (g : ruleset) (s : rread) : res (ruleset * rread) :=
  bind (parse_action e) (fun a =>
  Ok (mkRules (ru_classes g) (ru_class_names g) (ru_rules g) (ru_rule_names g) (ru_actions g ++ [a])
              (ru_classes_xml g) (ru_rules_xml g) (ru_actions_xml g ++ [drop_ns e]), s)).
(** xml_parser.py:330-355 _process_rules *)
Definition read_elem (db : option unidb) (fuel : nat) (force : bool) (e : xelem) (g : ruleset) (s : rread)
  : res (ruleset * rread) :=
  if class_tag e then read_class force e g s
  else if has_tag "rule" e then read_rule db fuel force e g s
  else if has_tag "action" e then read_action e g s
  else Ok (g, unhandled s).
Fixpoint process_rules (db : option unidb) (fuel : nat) (force : bool) (l : list xelem) (g : ruleset) (s : rread)
  : res (ruleset * rread) :=
  match l with
  | [] => Ok (g, s)
  | e :: l' => bind (read_elem db fuel force e g s) (fun p => process_rules db fuel force l' (fst p) (snd p))
  end.

(** The rules of an LGR when its <rules> section is reached: the classes are
    those of the tags of its repertoire. *)
Definition before_rules (tags : list (string * list N)) : ruleset :=
  mkRules (fold_left (fun t p => set_tag_class t (fst p) (snd p)) tags []) [] [] [] [] [] [] [].
Definition fresh_read (r : results) : rread := mkRead 0 [] r.

(** xml_serializer.py:173-185 _serialize_rules, as the XML library reads it
    back: elements written without a namespace are below the root, whose
    default namespace is that of LGRs (xml_serializer.py:15-16, 27). *)
Fixpoint in_default_ns (e : xelem) : xelem :=
  match e with
  | XElem s n a t ch => XElem (match s with NoNs => LgrNs | _ => s end) n a t (map in_default_ns ch)
  end.
Definition serialize_rules (g : ruleset) : list xelem :=
  map in_default_ns (ru_classes_xml g ++ ru_rules_xml g ++ ru_actions_xml g).
