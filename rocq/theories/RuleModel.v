(** Model of lgr/matcher.py, lgr/rule.py and of the rule table of lgr/core.py.
    No proofs here.

    Simplifications: comments and references are left out, log messages
    dropped.  A count attribute is given by its numbers ("n", "n+" or "n:m"); any
    other text is kept as it is, and is taken to make a pattern the Unicode
    library refuses.
    A pattern is the list of the pieces of text it is made of (tokens) instead
    of a string; a class stands for its set (classes.py:21-41).  Rules are
    objects with a cache: [r_id] is the identity of the object; the rule table,
    class table and Unicode database objects of an LGR stay the same, so the
    rest of the cache key (rule.py:77) is only the look-behind flag.  Patterns
    are compiled and searched by the Unicode library (ICU), for which [compile]
    and [search] stand; labels are taken to have no line terminators, which ICU
    treats apart. *)
From Verif Require Import Base ClassModel.
Open Scope string_scope.
Open Scope list_scope.

Inductive count := CExactly (n : nat) | CAtLeast (n : nat) | CBetween (n m : nat) | COther (s : string).
Inductive matcher : Type :=
| MStart | MEnd | MAnchor
| MAny (k : option count)
| MChar (l : cps) (k : option count)
| MClass (c : cls) (k : option count)
| MChoice (k : option count) (alts : list matcher)
| MAhead (l : list matcher)
| MBehind (l : list matcher)
| MRule (r : rule) (k : option count)
with rule : Type :=
| Rule (id : nat) (name by_ref : option string) (children : list matcher).
Definition r_id (r : rule) : nat := match r with Rule i _ _ _ => i end.
Definition r_name (r : rule) : option string := match r with Rule _ n _ _ => n end.
Definition r_by_ref (r : rule) : option string := match r with Rule _ _ b _ => b end.
Definition r_children (r : rule) : list matcher := match r with Rule _ _ _ c => c end.

(** rule.py:27-46 Rule.__init__, 58-62 add_child *)
Definition new_rule (id : nat) (name by_ref : option string) : res rule :=
  match name, by_ref with
  | Some _, Some _ => Raise (LGRFormatException BY_REF_AND_OTHER)
  | _, _ => Ok (Rule id name by_ref [])
  end.
Definition rule_add_child (r : rule) (m : matcher) : res rule :=
  match r with
  | Rule i n (Some b) ch => Raise (LGRFormatException BY_REF_AND_OTHER)
  | Rule i n None ch => Ok (Rule i n None (ch ++ [m]))
  end.

(** The pieces patterns are made of: ^ $ %(anchor)s . \x{..} [..] ( (?: (?= (?<= | ) {a,b} *)
Inductive token : Type :=
| TStart | TEnd | TAnchor | TDot
| TChar (c : N)
| TSet (s : uset)
| TOpen | TOpenNC | TAhead | TBehind | TBar | TClose
| TCount (lo : nat) (hi : option nat)
| TJunk (s : string).
Definition is_anchor (t : token) : bool := match t with TAnchor => true | _ => false end.

(** core.py PROTOCOL_LABEL_MAX_LENGTH *)
Definition max_label : nat := 63.
(** matcher.py:248-270 CountMatcher.get_pattern *)
Definition count_tokens (lb : bool) (k : option count) : list token :=
  match k with
  | None => []
  | Some (CBetween a b) => [TCount a (Some b)]
  | Some (CAtLeast n) => [TCount n (if lb then Some max_label else None)]
  | Some (CExactly n) => [TCount n (Some n)]
  | Some (COther s) => [TJunk s]
  end.
(** '(%s)%s' if there is a count *)
Definition grouped (lb : bool) (k : option count) (p : list token) : list token :=
  match k with None => p | Some _ => TOpen :: p ++ TClose :: count_tokens lb k end.
(** ')|(?:'.join(..) *)
Fixpoint alternatives (l : list (list token)) : list token :=
  match l with
  | [] => []
  | [p] => p
  | p :: l' => p ++ [TClose; TBar; TOpenNC] ++ alternatives l'
  end.

Definition rtable := dict string rule.
Definition cache_key := (nat * bool)%type.
Definition key_eqb (a b : cache_key) : bool := (Nat.eqb (fst a) (fst b) && Bool.eqb (snd a) (snd b))%bool.
Definition cache := dict cache_key (list token).

Section Pattern.
  Variable u : unidb.
  Variable look : table.
  Variable rules : rtable.

  (** classes.py:21-41 set_to_rvalue(cp_set, False) *)
  Definition class_pattern (fuel : nat) (c : cls) : res (list token) :=
    bind (class_set u look fuel c) (fun s => Ok (if empty_set u s then [] else [TSet s])).

  (** get_pattern of the matchers (matcher.py:112-460) and of a rule
      (rule.py:64-102).  Running out of fuel stands for a chain of references
      deeper than any stack. *)
  Fixpoint mpat (fuel : nat) (lb : bool) (m : matcher) (k : cache) : cache * res (list token) :=
    match fuel with
    | O => (k, Raise OutOfFuel)
    | S f =>
        match m with
        | MStart => (k, Ok [TStart])
        | MEnd => (k, Ok [TEnd])
        | MAnchor => (k, Ok [TAnchor])
        | MAny n => (k, Ok (TDot :: count_tokens lb n))
        | MChar l n => (k, Ok (grouped lb n (map TChar l)))
        | MClass c n => (k, bind (class_pattern f c) (fun p => Ok (grouped lb n p)))
        | MChoice n alts =>
            let '(k1, x) := mpats f lb alts k in
            (k1, bind x (fun ps => Ok (TOpenNC :: TOpenNC :: alternatives ps ++ TClose :: TClose :: count_tokens lb n)))
        | MAhead l =>
            let '(k1, x) := mpats f false l k in
            (k1, bind x (fun ps => Ok (TAhead :: List.concat ps ++ [TClose])))
        | MBehind l =>
            let '(k1, x) := mpats f true l k in
            (k1, bind x (fun ps => Ok (TBehind :: List.concat ps ++ [TClose])))
        | MRule r n =>
            let '(k1, x) := rpat f lb r k in
            (k1, bind x (fun p => Ok (grouped lb n p)))
        end
    end
  with mpats (fuel : nat) (lb : bool) (l : list matcher) (k : cache) : cache * res (list (list token)) :=
    match fuel with
    | O => (k, Raise OutOfFuel)
    | S f =>
        match l with
        | [] => (k, Ok [])
        | m :: l' =>
            let '(k1, x) := mpat f lb m k in
            match x with
            | Raise e => (k1, Raise e)
            | Ok p => let '(k2, y) := mpats f lb l' k1 in (k2, bind y (fun ps => Ok (p :: ps)))
            end
        end
    end
  with rpat (fuel : nat) (lb : bool) (r : rule) (k : cache) : cache * res (list token) :=
    match fuel with
    | O => (k, Raise OutOfFuel)
    | S f =>
        match dget key_eqb (r_id r, lb) k with
        | Some p => (k, Ok p)
        | None =>
            match r_by_ref r with
            | Some b =>
                match dget String.eqb b rules with
                | None => (k, Raise (RuleError b))
                | Some r' => rpat f lb r' k
                end
            | None =>
                let '(k1, x) := mpats f lb (r_children r) k in
                match x with
                | Raise e => (k1, Raise e)
                | Ok ps => (dset key_eqb (r_id r, lb) (List.concat ps) k1, Ok (List.concat ps))
                end
            end
        end
    end.
End Pattern.

(** ** The pattern language of the Unicode library *)
Inductive regex : Type :=
| RStart | REnd | RDot
| RChar (c : N)
| RSet (s : uset)
| REmpty
| RCat (a b : regex)
| RAlt (a b : regex)
| RRep (a : regex) (lo : nat) (hi : option nat)
| RAhead (a : regex)
| RBehind (a : regex).

(** Reading a pattern: a stack of open groups, each with the alternatives read
    (last first) and the items of the current one (last first). *)
Inductive group := GPlain | GAhead | GBehind.
Record frame := mkFrame { f_kind : group; f_alts : list regex; f_cur : list regex }.
Definition rcat (l : list regex) : regex := fold_right RCat REmpty l.
Definition close_alts (fr : frame) : regex :=
  fold_left (fun acc a => RAlt a acc) (f_alts fr) (rcat (rev (f_cur fr))).
(** Longest text an expression can take, None without bound (look-behind must
    be bounded). *)
Fixpoint longest (r : regex) : option nat :=
  match r with
  | RStart | REnd | REmpty | RAhead _ | RBehind _ => Some 0%nat
  | RDot | RChar _ | RSet _ => Some 1%nat
  | RCat a b => match longest a, longest b with Some x, Some y => Some (x + y)%nat | _, _ => None end
  | RAlt a b => match longest a, longest b with Some x, Some y => Some (Nat.max x y) | _, _ => None end
  | RRep a lo hi => match longest a, hi with Some x, Some h => Some (x * h)%nat | _, _ => None end
  end.
Definition close (fr : frame) : option regex :=
  let r := close_alts fr in
  match f_kind fr with
  | GPlain => Some r
  | GAhead => Some (RAhead r)
  | GBehind => match longest r with Some _ => Some (RBehind r) | None => None end
  end.
Definition push_item (x : regex) (fr : frame) : frame := mkFrame (f_kind fr) (f_alts fr) (x :: f_cur fr).
Fixpoint parse (ts : list token) (fr : frame) (stack : list frame) : option regex :=
  match ts with
  | [] => match stack with [] => Some (close_alts fr) | _ => None end
  | t :: ts' =>
      match t with
      | TStart => parse ts' (push_item RStart fr) stack
      | TEnd => parse ts' (push_item REnd fr) stack
      | TDot => parse ts' (push_item RDot fr) stack
      | TChar c => parse ts' (push_item (RChar c) fr) stack
      | TSet s => parse ts' (push_item (RSet s) fr) stack
      | TAnchor => None
      | TOpen | TOpenNC => parse ts' (mkFrame GPlain [] []) (fr :: stack)
      | TAhead => parse ts' (mkFrame GAhead [] []) (fr :: stack)
      | TBehind => parse ts' (mkFrame GBehind [] []) (fr :: stack)
      | TBar => parse ts' (mkFrame (f_kind fr) (rcat (rev (f_cur fr)) :: f_alts fr) []) stack
      | TClose =>
          match stack, close fr with
          | up :: stack', Some r => parse ts' (push_item r up) stack'
          | _, _ => None
          end
      | TCount lo hi =>
          match f_cur fr with
          | x :: cur =>
              if match hi with Some h => Nat.leb lo h | None => true end
              then parse ts' (mkFrame (f_kind fr) (f_alts fr) (RRep x lo hi :: cur)) stack
              else None
          | [] => None
          end
      | TJunk _ => None
      end
  end.
(** A pattern with a place for the anchor left in it reads as the text
    "%", "anchor" in a group, "s". *)
Definition unfilled : list token :=
  TChar 37 :: TOpen :: map TChar [97; 110; 99; 104; 111; 114] ++ [TClose; TChar 115].
Definition fill (a : list token) (p : list token) : list token := flat_map (fun t => if is_anchor t then a else [t]) p.
Definition compile (p : list token) : option regex := parse (fill unfilled p) (mkFrame GPlain [] []) [].

(** Matching label [w] from position [i] to position [j]. *)
Section Match.
  Variable w : cps.
  Definition positions : list nat := seq 0 (S (length w)).
  Section Times.
    Variable one : nat -> nat -> bool.
    Fixpoint times (k : nat) (i j : nat) : bool :=
      match k with
      | O => Nat.eqb i j
      | S k' => existsb (fun m => if one i m then times k' m j else false) positions
      end.
  End Times.
  Fixpoint mat (r : regex) (i j : nat) : bool :=
    match r with
    | RStart => Nat.eqb i 0 && Nat.eqb i j
    | REnd => Nat.eqb i (length w) && Nat.eqb i j
    | RDot => match nth_error w i with Some _ => Nat.eqb j (S i) | None => false end
    | RChar c => match nth_error w i with Some x => N.eqb x c && Nat.eqb j (S i) | None => false end
    | RSet s => match nth_error w i with Some x => s x && Nat.eqb j (S i) | None => false end
    | REmpty => Nat.eqb i j
    | RCat a b => existsb (fun k => if mat a i k then mat b k j else false) positions
    | RAlt a b => mat a i j || mat b i j
    | RRep a lo hi =>
        let extra := match hi with Some h => Nat.min (h - lo) (length w) | None => length w end in
        existsb (fun k => times (mat a) k i j) (seq lo (S extra))
    | RAhead a => if Nat.eqb i j then existsb (fun k => mat a i k) positions else false
    | RBehind a => if Nat.eqb i j then existsb (fun k => mat a k i) positions else false
    end%bool.
  (** First position, from [index] on, where a match starts. *)
  Definition search (r : regex) (index : nat) : option nat :=
    find (fun i => existsb (mat r i) positions) (seq index (S (length w) - index)).
End Match.

(** rule.py:121-195 Rule.matches *)
Definition rule_matches (u : unidb) (look : table) (rules : rtable) (fuel : nat)
  (r : rule) (label : cps) (anchor : option cps) (index : nat) (k : cache) : cache * res bool :=
  let '(k1, x) := rpat u look rules fuel false r k in
  match x with
  | Raise e => (k1, Raise e)
  | Ok [] => (k1, Ok false)
  | Ok pattern =>
      let '(pattern, anchor, index) :=
        match anchor with
        | None => (pattern, None, index)
        | Some a => if existsb is_anchor pattern then (fill (map TChar a) pattern, Some a, index) else (pattern, None, 0%nat)
        end in
      (k1, match compile pattern with
           | None => Raise (RuleError (match r_name r with Some n => n | None => EmptyString end))
           | Some re =>
               match search label re index with
               | None => Ok false
               | Some i => match anchor with
                           | Some _ => Ok (negb (Nat.ltb index i))
                           | None => Ok true
                           end
               end
           end)
  end.

(** rule.py:197-231 and the validate methods of the matchers; [top]: no parent. *)
Fixpoint validate_matcher (look : table) (rules : rtable) (m : matcher) : res unit :=
  match m with
  | MChoice _ l | MAhead l | MBehind l =>
      (fix all (l : list matcher) : res unit :=
         match l with [] => Ok tt | x :: l' => bind (validate_matcher look rules x) (fun _ => all l') end) l
  | MRule r _ => validate_rule look rules false r
  | MClass c _ => validate_class look false c
  | _ => Ok tt
  end
with validate_rule (look : table) (rules : rtable) (top : bool) (r : rule) : res unit :=
  match r with
  | Rule _ name by_ref ch =>
      bind (match by_ref with
            | Some b => if dmem String.eqb b rules then Ok tt else Raise (LGRFormatException INVALID_BY_REF)
            | None => Ok tt end) (fun _ =>
      if Bool.eqb top (match name with Some _ => true | None => false end)
      then (fix all (l : list matcher) : res unit :=
              match l with [] => Ok tt | x :: l' => bind (validate_matcher look rules x) (fun _ => all l') end) ch
      else Raise (LGRFormatException INVALID_TOP_LEVEL_NAME))
  end.
(** core.py:969-988 add_rule (a forced rule without name is stored under None,
    which nothing refers to). *)
Definition add_rule (look : table) (rules : rtable) (r : rule) (force : bool) : rtable * res unit :=
  let store := match r_name r with Some n => dset String.eqb n r rules | None => rules end in
  match validate_rule look rules true r with
  | Ok _ => (store, Ok tt)
  | Raise e => if force then (store, Ok tt) else (rules, Raise e)
  end.
