(** Shared vocabulary of the model: code points, exceptions as values,
    insertion-ordered dictionaries and stable sorting.  No proofs here. *)
From Coq Require Export String NArith ZArith Bool Lia List.
Export ListNotations.
Open Scope list_scope.
Open Scope N_scope.

(** Code points and code point sequences.  The Python code uses ints for code
    points and tuples/lists of ints for sequences and labels; it never
    distinguishes the two containers except where noted. *)
Definition cp := N.
Definition cps := list N.

(** lgr/exceptions.py:10-290 (and Python built-ins the modelled code can
    raise).  The payload is the one the code passes to the constructor. *)
Inductive format_reason : Type :=
| MATCH_NOT_MATCH | BY_REF_AND_OTHER | INVALID_BY_REF | INVALID_CHILDREN_NUMBER
| INVALID_DATE_TAG | INVALID_LANGUAGE_TAG | INVALID_UNICODE_VERSION_TAG
| DUPLICATE_TAG | SEQUENCE_NO_TAG | INVALID_TOP_LEVEL_NAME | RANGE_NO_CHILD.

Inductive exn : Type :=
| AssertionError
| IndexError
| KeyErrorCp (k : N)
| KeyErrorStr (k : string)
| ValueError
| OverflowError
| TypeError
| LGRApiInvalidParameter (s : string)
| LGRApiException
| CharAlreadyExists (c : cps)
| CharInvalidContextRule (c : cps)
| NotInLGR (c : cps)
| NotInRepertoire (c : cps)
| CharInvalidIdnaProperty (c : cps)
| CharNotInScript (c : cps)
| RangeAlreadyExists (f l : N)
| RangeInvalidContextRule (f l : N)
| VariantAlreadyExists (c v : cps)
| VariantInvalidContextRule (c v : cps)
| ReferenceNotDefined (r : string)
| ReferenceAlreadyExists (r : string)
| ReferenceInvalidId (r : string)
| DuplicateReference (c : cps)
| LGRFormatException (r : format_reason)
| RuleError (r : string)
| LGRException
| OutOfFuel.

Inductive res (A : Type) : Type :=
| Ok (a : A)
| Raise (e : exn).
Arguments Ok {A} a.
Arguments Raise {A} e.

Definition bind {A B} (r : res A) (f : A -> res B) : res B :=
  match r with Ok a => f a | Raise e => Raise e end.

(** Equality of sequences (Python tuple equality). *)
Fixpoint cps_eqb (a b : cps) : bool :=
  match a, b with
  | [], [] => true
  | x :: a', y :: b' => N.eqb x y && cps_eqb a' b'
  | _, _ => false
  end.

(** Python's lexicographic order on tuples of ints. *)
Fixpoint cps_leb (a b : cps) : bool :=
  match a, b with
  | [], _ => true
  | _ :: _, [] => false
  | x :: a', y :: b' => if N.eqb x y then cps_leb a' b' else N.ltb x y
  end.

Definition ostring_eqb (a b : option string) : bool :=
  match a, b with
  | None, None => true
  | Some x, Some y => String.eqb x y
  | _, _ => false
  end.

(** Python truthiness of an optional string (None and '' are false). *)
Definition truthy (s : option string) : bool :=
  match s with
  | None => false
  | Some x => negb (String.eqb x EmptyString)
  end.

(** [l[:len p] == p], with enough elements. *)
Fixpoint prefixb (p l : cps) : bool :=
  match p, l with
  | [], _ => true
  | _ :: _, [] => false
  | x :: p', y :: l' => N.eqb x y && prefixb p' l'
  end.

(** Insertion-ordered dictionaries (CPython >= 3.7 dict). *)
Section Dict.
  Context {K V : Type} (eqb : K -> K -> bool).
  Definition dict := list (K * V).
  Fixpoint dget (k : K) (d : dict) : option V :=
    match d with
    | [] => None
    | (k', v) :: r => if eqb k k' then Some v else dget k r
    end.
  (** d[k] = v : overwrite in place, or append. *)
  Fixpoint dset (k : K) (v : V) (d : dict) : dict :=
    match d with
    | [] => [(k, v)]
    | (k', v') :: r => if eqb k k' then (k', v) :: r else (k', v') :: dset k v r
    end.
  (** del d[k]. *)
  Fixpoint ddel (k : K) (d : dict) : dict :=
    match d with
    | [] => []
    | (k', v') :: r => if eqb k k' then r else (k', v') :: ddel k r
    end.
  Definition dmem (k : K) (d : dict) : bool :=
    match dget k d with Some _ => true | None => false end.
End Dict.
Arguments dict K V : clear implicits.

Definition dkeys {K V} (d : dict K V) : list K := map fst d.
Definition dvals {K V} (d : dict K V) : list V := map snd d.

(** Stable sorting (list.sort / sorted). *)
Section Sort.
  Context {A : Type} (leb : A -> A -> bool).
  Fixpoint insert (x : A) (l : list A) : list A :=
    match l with
    | [] => [x]
    | y :: r => if leb x y then x :: l else y :: insert x r
    end.
  Definition isort (l : list A) : list A := fold_right insert [] l.
End Sort.

Definition memb {A} (eqb : A -> A -> bool) (x : A) (l : list A) : bool :=
  existsb (eqb x) l.
Arguments memb : simpl never.

(** list.remove(x) when x is present (first occurrence). *)
Fixpoint remove1 {A} (eqb : A -> A -> bool) (x : A) (l : list A) : list A :=
  match l with
  | [] => []
  | y :: r => if eqb x y then r else y :: remove1 eqb x r
  end.

(** Keep one occurrence of each element (models set(...) / ordered dedup):
    later occurrences of an element already seen are dropped. *)
Fixpoint dedup_aux {A} (eqb : A -> A -> bool) (seen l : list A) : list A :=
  match l with
  | [] => []
  | x :: r => if memb eqb x seen then dedup_aux eqb seen r
              else x :: dedup_aux eqb (x :: seen) r
  end.
Definition dedup {A} (eqb : A -> A -> bool) (l : list A) : list A :=
  dedup_aux eqb [] l.

(** range(first, last + 1): empty when last < first. *)
Definition nrange (first last : N) : list N :=
  map (fun i => first + N.of_nat i) (seq 0 (N.to_nat (last + 1 - first))).

Fixpoint mapM_res {A B} (f : A -> res B) (l : list A) : res (list B) :=
  match l with
  | [] => Ok []
  | x :: r => bind (f x) (fun y => bind (mapM_res f r) (fun ys => Ok (y :: ys)))
  end.
