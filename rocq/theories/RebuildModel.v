(** Model of lgr/validate/rebuild_lgr.py and of the script check of lgr/core.py.
    No proofs here. *)
From Verif Require Import Base CharModel LgrModel ValidateModel.
Open Scope string_scope.
Open Scope list_scope.

(** The issues noted for one entry: errors, warnings (CharNotInScript) and
    refused variants. *)
Record rebuild_issue : Type := mkRI {
  ri_char : char; ri_errors : list exn; ri_warnings : list cps; ri_variants : list (variant * exn)
}.
Definition is_idna_error (e : exn) : bool := match e with CharInvalidIdnaProperty _ => true | _ => false end.

(** core.py:2044-2049; [s] is the script of a code point, None when the
    database does not implement get_script (core.py:2050-2052). *)
Definition script_ok (scripts : list string) (s : option string) : bool :=
  match s with
  | None => true
  | Some s => negb (match scripts with [] => false | _ => true end
                    && negb (memb String.eqb s scripts) && negb (memb String.eqb s ["Zyyy"; "Zinh"]))%bool
  end.

Section Rebuild.
  (** get_script of a Unicode database, and the scripts of the LGR
      (metadata.get_scripts()). *)
  Variable script : unidb -> N -> option string.
  Variable scripts : list string.

  (** core.py:2024-2053 cp_in_script (only the first component of the result is
      used).  Without a database, get_script is looked up on None: TypeError
      stands for AttributeError. *)
  Definition cp_in_script (db : option unidb) (c : cps) : res bool :=
    match c with
    | [] => Ok true
    | _ => match db with
           | None => Raise TypeError
           | Some d => Ok (forallb (fun x => script_ok scripts (script d x)) c)
           end
    end.

  (** rebuild_lgr.py:117-139: the variants of a code point. *)
  Fixpoint rebuild_variants (t : lgr) (vr : option lgr) (c : cps) (l : list variant)
    : lgr * res (list (variant * exn)) :=
    match l with
    | [] => (t, Ok [])
    | v :: l' =>
        let again (t1 : lgr) (mine : list (variant * exn)) :=
          let '(t2, o) := rebuild_variants t1 vr c l' in (t2, bind o (fun is => Ok (mine ++ is))) in
        match lgr_add_variant t c (v_cp v) (v_type v) (v_when v) (v_not_when v) (v_comment v) (v_refs v) vr true false with
        | (t1, Ok _) => again t1 []
        | (t1, Raise e) =>
            if negb (is_lgr_exception e) then (t1, Raise e)
            else if is_idna_error e then again t1 [(v, e)]
            else match lgr_add_variant t1 c (v_cp v) (v_type v) (v_when v) (v_not_when v) (v_comment v) (v_refs v)
                         None false true with
                 | (t2, Ok _) => again t2 [(v, e)]
                 | (t2, Raise e2) => (t2, Raise e2)
                 end
        end
    end.

  (** rebuild_lgr.py:96-115: the code point itself, added again by force unless
      it is not valid in IDNA. *)
  Definition rebuild_cp (vr : option lgr) (t : lgr) (ch : char) : lgr * res (list exn) :=
    match lgr_add_cp t (ch_cp ch) (ch_comment ch) (ch_refs ch) (ch_tags ch) (ch_when ch) (ch_not_when ch) vr false false with
    | (t1, Ok _) => (t1, Ok [])
    | (t1, Raise e) =>
        if negb (is_lgr_exception e) then (t1, Raise e)
        else if is_idna_error e then (t1, Ok [e])
        else match lgr_add_cp t1 (ch_cp ch) (ch_comment ch) (ch_refs ch) (ch_tags ch) (ch_when ch) (ch_not_when ch)
                     None false true with
             | (t2, Ok _) => (t2, Ok [e])
             | (t2, Raise e2) => (t2, Raise e2)
             end
    end.

  (** rebuild_lgr.py:62-90: a range; check_range returns a list (core.py:892-924). *)
  Definition rebuild_range (src : option unidb) (vr : option lgr) (t : lgr) (ch : char) (f l : N) : lgr * res rebuild_issue :=
    match check_range t f l vr with
    | Raise e => (t, Raise e)
    | Ok statuses =>
        match mapM_res (fun s : N * option exn => bind (cp_in_script src [fst s]) (fun b => Ok (if b then [] else [[fst s]]))) statuses with
        | Raise e => (t, Raise e)
        | Ok ws =>
            let errors := flat_map (fun s : N * option exn => match snd s with Some e => [e] | None => [] end) statuses in
            let warnings := List.concat ws in
            match errors, warnings with
            | [], [] =>
                match lgr_add_range t f l (ch_comment ch) (ch_refs ch) (ch_tags ch) (ch_when ch) (ch_not_when ch) vr false false with
                | (t', Ok _) => (t', Ok (mkRI ch [] [] []))
                | (t', Raise e) => if is_lgr_exception e then (t', Ok (mkRI ch [e] [] [])) else (t', Raise e)
                end
            | _, _ => (t, Ok (mkRI ch errors warnings []))
            end
        end
    end.

  (** rebuild_lgr.py:61-139: one entry. *)
  Definition rebuild_char (src : option unidb) (vr : option lgr) (t : lgr) (ch : char) : lgr * res rebuild_issue :=
    match ch_kind ch with
    | KRange f l => rebuild_range src vr t ch f l
    | _ =>
        match cp_in_script src (ch_cp ch) with
        | Raise e => (t, Raise e)
        | Ok b =>
            let warnings := if b then [] else [ch_cp ch] in
            let '(t1, o) := rebuild_cp vr t ch in
            match o with
            | Raise e => (t1, Raise e)
            | Ok errors =>
                let '(t2, vs) := rebuild_variants t1 vr (ch_cp ch) (get_variants ch) in
                (t2, bind vs (fun vs => Ok (mkRI ch errors warnings vs)))
            end
        end
    end.
  Fixpoint rebuild_loop (src : option unidb) (vr : option lgr) (t : lgr) (l : list char)
    : lgr * res (list rebuild_issue) :=
    match l with
    | [] => (t, Ok [])
    | ch :: l' =>
        match rebuild_char src vr t ch with
        | (t', Raise e) => (t', Raise e)
        | (t', Ok i) => let '(t2, o) := rebuild_loop src vr t' l' in (t2, bind o (fun is => Ok (i :: is)))
        end
    end.
  (** rebuild_lgr.py:17-143.  [db] and [vr] are the options.  The target LGR
      starts with the references of the source; it raises on invalid properties
      (default of core.py:84-142).  The code discards it and always answers True.
      The issues are listed for every entry, empty ones included (the code
      keeps a dictionary of the entries that have some). *)
  Definition rebuild_lgr (g : lgr) (db : option unidb) (vr : option lgr) : res (bool * list rebuild_issue) :=
    bind (snd (rebuild_loop (lg_db g) vr (set_refs (new_lgr db false) (lg_refs g)) (rep_iter (lg_rep g))))
      (fun is => Ok (true, is)).
End Rebuild.
