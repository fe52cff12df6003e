(** Model of ReferenceManager (lgr/metadata.py:337-477).  No proofs here.
    Identifiers are the strings str(ref_id) under which every access is made
    (metadata.py:358-368); a reference is its value and optional comment. *)
From Verif Require Import Base UtilsModel.

Record reference : Type := mkRef { ref_value : string; ref_comment : option string }.

Record refman : Type := mkRefman { rm_refs : dict string reference; rm_next : Z }.
Definition empty_refman : refman := mkRefman [] 0.

(** str(int). *)
Definition str_Z (z : Z) : string := untxt (py_str_Z z).

(** metadata.py:351 REFERENCE_REGEX = '^[\-_.:0-9A-Z]*$' with re.match: the
    empty string and one trailing newline are accepted. *)
Definition ref_char (c : N) : bool :=
  N.eqb c 45 || N.eqb c 95 || N.eqb c 46 || N.eqb c 58
  || (N.leb 48 c && N.leb c 57) || (N.leb 65 c && N.leb c 90).
Fixpoint ref_id_ok_txt (l : cps) : bool :=
  match l with
  | [] => true
  | [c] => ref_char c || N.eqb c 10
  | c :: r => ref_char c && ref_id_ok_txt r
  end.
Definition ref_id_ok (s : string) : bool := ref_id_ok_txt (txt s).

(** metadata.py:418-421: smallest unused id from [next_id] on. *)
Fixpoint next_free (fuel : nat) (d : dict string reference) (n : Z) : option Z :=
  match fuel with
  | O => None
  | S f => if dmem String.eqb (str_Z n) d then next_free f d (n + 1) else Some n
  end.

(** metadata.py:370-430 add_reference. *)
Definition rm_add (m : refman) (value : string) (comment : option string)
  (ref_id : option string) : refman * res string :=
  match ref_id with
  | Some id =>
      if dmem String.eqb id (rm_refs m) then (m, Raise (ReferenceAlreadyExists id))
      else if negb (ref_id_ok id) then (m, Raise (ReferenceInvalidId id))
      else (mkRefman (dset String.eqb id (mkRef value comment) (rm_refs m)) (rm_next m), Ok id)
  | None =>
      match next_free (S (length (rm_refs m))) (rm_refs m) (rm_next m) with
      | None => (m, Raise OutOfFuel)
      | Some n => (mkRefman (dset String.eqb (str_Z n) (mkRef value comment) (rm_refs m)) n,
                   Ok (str_Z n))
      end
  end.

(** metadata.py:432-457 del_reference. *)
Definition rm_del (m : refman) (id : string) : refman * res unit :=
  if dmem String.eqb id (rm_refs m) then
    let refs := ddel String.eqb id (rm_refs m) in
    match py_int 10 (txt id) with
    | Ok z => (mkRefman refs (if (z <? rm_next m)%Z then z else rm_next m), Ok tt)
    | Raise _ => (mkRefman refs (rm_next m), Ok tt)
    end
  else (m, Raise (ReferenceNotDefined id)).

(** metadata.py:459-477 update_reference. *)
Definition rm_update (m : refman) (id : string) (value comment : option string) : refman * res unit :=
  match dget String.eqb id (rm_refs m) with
  | None => (m, Raise (ReferenceNotDefined id))
  | Some r =>
      let r' := mkRef (match value with Some v => v | None => ref_value r end)
                      (match comment with Some c => Some c | None => ref_comment r end) in
      (mkRefman (dset String.eqb id r' (rm_refs m)) (rm_next m), Ok tt)
  end.

(** Operations, for histories. *)
Inductive ref_op : Type :=
| RAdd (value : string) (comment : option string) (id : option string)
| RDel (id : string)
| RUpdate (id : string) (value comment : option string).
Inductive ref_out : Type := ROk (id : string) | RUnit | RExn (e : exn).

Definition ref_step (m : refman) (o : ref_op) : refman * ref_out :=
  match o with
  | RAdd v c id => let '(m', x) := rm_add m v c id in
                   (m', match x with Ok s => ROk s | Raise e => RExn e end)
  | RDel id => let '(m', x) := rm_del m id in
               (m', match x with Ok _ => RUnit | Raise e => RExn e end)
  | RUpdate id v c => let '(m', x) := rm_update m id v c in
                      (m', match x with Ok _ => RUnit | Raise e => RExn e end)
  end.
Fixpoint ref_run (m : refman) (ops : list ref_op) : refman * list ref_out :=
  match ops with
  | [] => (m, [])
  | o :: ops' => let '(m1, x) := ref_step m o in
                 let '(m2, xs) := ref_run m1 ops' in (m2, x :: xs)
  end.
