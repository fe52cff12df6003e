(** Model of lgr/classes.py and of the class table of lgr/core.py.  No proofs
    here.

    Simplifications: comments and references of classes are left out, except
    that a reference list forbids by-ref; log messages are dropped.  Sets of code
    points are computed by the Unicode database (ICU): they are modelled as
    boolean functions over the code points 0 .. [ud_max]; code points above
    [ud_max] are ignored.  Evaluation makes fresh sets, so nothing is updated. *)
From Coq Require Import Ascii.
From Verif Require Import Base.
Open Scope string_scope.
Open Scope list_scope.

(** The Unicode database: its highest code point, and the set of a property
    given by name and value (None: the database raises). *)
Record unidb := mkDb { ud_max : N; ud_prop : string -> string -> option (N -> bool) }.
Definition uset := N -> bool.
(** len(set) == 0 *)
Definition empty_set (u : unidb) (s : uset) : bool := negb (existsb s (nrange 0 (ud_max u))).

(** classes.py:44-94, 223-446.  A plain class carries all four sources. *)
Inductive comb := Complement | Union | Intersection | Difference | SymmetricDifference.
Inductive cls : Type :=
| ClPlain (name by_ref from_tag prop : option string) (codepoints : list N)
| ClComb (name : option string) (op : comb) (children : list cls).
Definition cls_name (c : cls) : option string := match c with ClPlain n _ _ _ _ => n | ClComb n _ _ => n end.
Definition cls_by_ref (c : cls) : option string := match c with ClPlain _ b _ _ _ => b | ClComb _ _ _ => None end.

(** classes.py:48-94 Class.__init__ *)
Definition new_class (name by_ref from_tag prop : option string) (has_ref : bool) (codepoints : list N) : res cls :=
  match by_ref with
  | Some _ =>
      match name, from_tag, prop, has_ref with
      | None, None, None, false => Ok (ClPlain name by_ref from_tag prop codepoints)
      | _, _, _, _ => Raise (LGRFormatException BY_REF_AND_OTHER)
      end
  | None => Ok (ClPlain name by_ref from_tag prop codepoints)
  end.
(** classes.py:96-108 add_codepoint, 110-123 del_codepoint.  The code points
    are a set: kept without repetition. *)
Definition add_class_codepoints (c : cls) (l : list N) : res cls :=
  match c with
  | ClPlain n (Some b) t p s => Raise (LGRFormatException BY_REF_AND_OTHER)
  | ClPlain n None t p s => Ok (ClPlain n None t p (dedup N.eqb (s ++ l)))
  | ClComb n op ch => Ok c
  end.
Definition del_class_codepoints (c : cls) (l : list N) : res cls :=
  match c with
  | ClPlain n (Some b) t p s => Raise (LGRFormatException BY_REF_AND_OTHER)
  | ClPlain n None t p s => Ok (ClPlain n None t p (filter (fun x => negb (memb N.eqb x l)) s))
  | ClComb n op ch => Ok c
  end.
(** MAX_CHILDREN, 0 for no limit: classes.py:228, 264, 335, 374, 412. *)
Definition max_children (op : comb) : nat :=
  match op with Complement => 1 | Union => 0 | _ => 2 end.
(** classes.py:235-240 CombinatorClass.add_child *)
Definition add_child (c : cls) (child : cls) : res cls :=
  match c with
  | ClComb n op ch =>
      if (Nat.ltb 0 (max_children op) && Nat.leb (max_children op) (length ch))%bool
      then Raise (LGRFormatException INVALID_CHILDREN_NUMBER)
      else Ok (ClComb n op (ch ++ [child]))
  | _ => Raise TypeError
  end.

(** classes.py:18 and str.split(':') *)
Definition tag_classname (t : string) : string := "#__internal_tag_" ++ t.
Definition colon : Ascii.ascii := ":"%char.
Fixpoint split_colon (s : string) : list string :=
  match s with
  | EmptyString => [EmptyString]
  | String c s' =>
      let r := split_colon s' in
      if Ascii.eqb c colon then EmptyString :: r
      else match r with [] => [String c EmptyString] | w :: r' => String c w :: r' end
  end.

Definition table := dict string cls.

(** classes.py:125-169, 269-279, 306-315, 341-354, 380-392, 418-431: the set of
    a class (get_pattern with as_set=True).  Every call uses up fuel: running
    out stands for a chain of references deeper than any stack. *)
Section Eval.
  Variable u : unidb.
  Variable look : table.
  Definition bounded (s : uset) : uset := fun x => (N.leb x (ud_max u) && s x)%bool.
  Fixpoint class_set (fuel : nat) (c : cls) : res uset :=
    match fuel with
    | O => Raise OutOfFuel
    | S f =>
        match c with
        | ClPlain _ (Some b) _ _ _ =>
            match dget String.eqb b look with
            | None => Raise (RuleError b)
            | Some c' => class_set f c'
            end
        | ClPlain _ None (Some t) _ _ =>
            match dget String.eqb (tag_classname t) look with
            | None => Ok (fun _ => false)
            | Some c' => class_set f c'
            end
        | ClPlain _ None None (Some p) _ =>
            match split_colon p with
            | [n; v] => match ud_prop u n v with
                        | Some s => Ok (bounded s)
                        | None => Raise (RuleError p)
                        end
            | _ => Raise ValueError
            end
        | ClPlain _ None None None l => Ok (bounded (fun x => memb N.eqb x l))
        | ClComb _ Complement ch =>
            match ch with
            | [] => Raise IndexError
            | c1 :: _ => bind (class_set f c1) (fun s => Ok (bounded (fun x => negb (s x))))
            end
        | ClComb _ Union ch => union_set f ch (fun _ => false)
        | ClComb _ op ch =>
            match ch with
            | [] => Raise IndexError
            | c1 :: ch' =>
                bind (class_set f c1) (fun s1 =>
                match ch' with
                | [] => Raise IndexError
                | c2 :: _ =>
                    bind (class_set f c2) (fun s2 =>
                    Ok (match op with
                        | Intersection => fun x => s1 x && s2 x
                        | Difference => fun x => s1 x && negb (s2 x)
                        | _ => fun x => (s1 x || s2 x) && negb (s1 x && s2 x)
                        end)%bool)
                end)
            end
        end
    end
  with union_set (fuel : nat) (ch : list cls) (acc : uset) : res uset :=
    match fuel with
    | O => Raise OutOfFuel
    | S f =>
        match ch with
        | [] => Ok acc
        | c1 :: ch' => bind (class_set f c1) (fun s => union_set f ch' (fun x => acc x || s x)%bool)
        end
    end.
End Eval.

(** classes.py:171-204, 242-247, 281-288, 317-324, 356-363, 394-401, 433-441:
    validation; [top]: no parent. *)
Definition children_ok (op : comb) (n : nat) : bool :=
  match op with Complement => Nat.eqb n 1 | Union => Nat.leb 2 n | _ => Nat.eqb n 2 end.
Fixpoint validate_class (look : table) (top : bool) (c : cls) : res unit :=
  match c with
  | ClPlain name by_ref _ _ _ =>
      match by_ref with
      | Some b =>
          if dmem String.eqb b look
          then if Bool.eqb top (match name with Some _ => true | None => false end) then Ok tt
               else Raise (LGRFormatException INVALID_TOP_LEVEL_NAME)
          else Raise (LGRFormatException INVALID_BY_REF)
      | None => if Bool.eqb top (match name with Some _ => true | None => false end) then Ok tt
                else Raise (LGRFormatException INVALID_TOP_LEVEL_NAME)
      end
  | ClComb name op ch =>
      if Bool.eqb top (match name with Some _ => true | None => false end) then
        bind ((fix all (l : list cls) : res unit :=
                 match l with
                 | [] => Ok tt
                 | x :: l' => bind (validate_class look false x) (fun _ => all l')
                 end) ch) (fun _ =>
        if children_ok op (length ch) then Ok tt else Raise (LGRFormatException INVALID_CHILDREN_NUMBER))
      else Raise (LGRFormatException INVALID_TOP_LEVEL_NAME)
  end.

(** core.py:1002-1019 add_class.  classes_lookup[cls.name] = cls: a forced
    anonymous class would be stored under None, which no reference finds: it is
    left out. *)
Definition add_class (look : table) (c : cls) (force : bool) : table * res unit :=
  let store := match cls_name c with Some n => dset String.eqb n c look | None => look end in
  match validate_class look true c with
  | Ok _ => (store, Ok tt)
  | Raise e => if force then (store, Ok tt) else (look, Raise e)
  end.
(** core.py:2094-2129, 239: the classes of tags, made of the code points
    carrying the tag. *)
Definition set_tag_class (look : table) (t : string) (l : list N) : table :=
  dset String.eqb (tag_classname t) (ClPlain (Some t) None None None l) look.
Definition del_tag_class (look : table) (t : string) : table := ddel String.eqb (tag_classname t) look.

Inductive class_op :=
| CAdd (c : cls) (force : bool)
| CTag (t : string) (l : list N)
| CUntag (t : string).
Definition class_step (look : table) (o : class_op) : table :=
  match o with
  | CAdd c f => fst (add_class look c f)
  | CTag t l => set_tag_class look t l
  | CUntag t => del_tag_class look t
  end.
Definition class_run (ops : list class_op) : table := fold_left class_step ops [].
