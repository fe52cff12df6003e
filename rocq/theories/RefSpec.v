(** Specification of the reference table: a finite map and a counter, with a
    step relation. *)
From Verif Require Import Base RefModel UtilsModel.

Record rstate : Type := mkR { r_map : string -> option reference; r_next : Z }.
Definition r_empty : rstate := mkR (fun _ => None) 0.
Definition r_upd (m : string -> option reference) (k : string) (v : option reference) :=
  fun k' => if String.eqb k' k then v else m k'.
Definition r_same (a b : rstate) : Prop := (forall k, r_map a k = r_map b k) /\ r_next a = r_next b.

(** Identifier syntax: characters - _ . : 0-9 A-Z, with at most one newline at
    the very end (an artefact of '$'). *)
Definition id_char (c : N) : Prop :=
  In c [45; 95; 46; 58] \/ 48 <= c <= 57 \/ 65 <= c <= 90.
Definition id_syntax (s : string) : Prop :=
  exists body tail, txt s = body ++ tail /\ Forall id_char body /\ (tail = [] \/ tail = [10]).

Inductive r_step (a : rstate) : ref_op -> rstate -> ref_out -> Prop :=
| RS_add_exists : forall v c id, r_map a id <> None ->
    r_step a (RAdd v c (Some id)) a (RExn (ReferenceAlreadyExists id))
| RS_add_invalid : forall v c id, r_map a id = None -> ~ id_syntax id ->
    r_step a (RAdd v c (Some id)) a (RExn (ReferenceInvalidId id))
| RS_add : forall v c id, r_map a id = None -> id_syntax id ->
    r_step a (RAdd v c (Some id))
           (mkR (r_upd (r_map a) id (Some (mkRef v c))) (r_next a)) (ROk id)
| RS_add_auto : forall v c z, (r_next a <= z)%Z -> r_map a (str_Z z) = None ->
    (forall y, (r_next a <= y < z)%Z -> r_map a (str_Z y) <> None) ->
    r_step a (RAdd v c None)
           (mkR (r_upd (r_map a) (str_Z z) (Some (mkRef v c))) z) (ROk (str_Z z))
| RS_del_missing : forall id, r_map a id = None ->
    r_step a (RDel id) a (RExn (ReferenceNotDefined id))
| RS_del : forall id n, r_map a id <> None ->
    (n = match py_int 10 (txt id) with Ok z => Z.min z (r_next a) | Raise _ => r_next a end) ->
    r_step a (RDel id) (mkR (r_upd (r_map a) id None) n) RUnit
| RS_update_missing : forall id v c, r_map a id = None ->
    r_step a (RUpdate id v c) a (RExn (ReferenceNotDefined id))
| RS_update : forall id v c r, r_map a id = Some r ->
    r_step a (RUpdate id v c)
      (mkR (r_upd (r_map a) id
              (Some (mkRef (match v with Some x => x | None => ref_value r end)
                           (match c with Some x => Some x | None => ref_comment r end))))
           (r_next a)) RUnit.

Inductive r_run : rstate -> list ref_op -> rstate -> list ref_out -> Prop :=
| RR_nil : forall a, r_run a [] a []
| RR_cons : forall a o a' x ops a'' xs, r_step a o a' x -> r_run a' ops a'' xs ->
    r_run a (o :: ops) a'' (x :: xs).

Definition r_lookup (m : refman) (k : string) : option reference := dget String.eqb k (rm_refs m).
