(** Model of lgr/tools/merge_set.py, up to the merged LGR that is then written
    as XML and parsed again (485-492, in MergeReadModel.v).  No proofs here.

    A member of the set is its languages, its LGR, the script extensions of its
    Unicode database if it has one, its actions and the names of its rules and
    classes.  Not modelled here: the texts of actions as XML.  What becomes of
    rules and classes (215-314) is in MergeRulesModel.v, here only their names;
    the metadata of the result (43-132) are in MergeMetaModel.v.  Scripts
    and rule names are put literally into regular expressions (389, 391, 399,
    410): they are taken to contain no special character.  [ord_names] and
    [ord_variants] give the order in which the elements of a set come.  A failed
    merge is just the exception. *)
From Coq Require Import Ascii.
From Verif Require Import Base CharModel RefModel ActionModel LgrModel ValidateModel PopulateModel CompareModel HarmonizeModel.
Open Scope string_scope.
Open Scope list_scope.

Record member : Type := mkMember {
  mb_languages : list string;
  mb_lgr : lgr;
  mb_extensions : option (N -> list string);
  mb_actions : list action;
  mb_rules : list string;
  mb_classes : list string
}.
(** The merged LGR and [ref_mapping] (470). *)
Record merged : Type := mkMerged {
  mg_lgr : lgr;
  mg_map : dict string (dict string string);
  mg_actions : list action;
  mg_rules : list string;
  mg_classes : list string
}.

(** merge_set.py:36-40 get_script. *)
Definition get_script (m : member) : string := match mb_languages m with [] => "" | l :: _ => l end.

Definition with_script (script s : string) : string := (script ++ "-" ++ s)%string.

(** ** References *)
(** merge_set.py:146: the values of the merged LGR; the last id wins. *)
Definition inserted (m : refman) : dict string string :=
  fold_left (fun d kv => dset String.eqb (ref_value (snd kv)) (fst kv) d) (rm_refs m) [].
(** merge_set.py:147-157. *)
Fixpoint merge_refs (ins : dict string string) (l : list (string * reference)) (m : refman) (mp : dict string string)
  : res (refman * dict string string) :=
  match l with
  | [] => Ok (m, mp)
  | (id, r) :: l' =>
      match dget String.eqb (ref_value r) ins with
      | None =>
          if dmem String.eqb id (rm_refs m)
          then match rm_add m (ref_value r) (ref_comment r) None with
               | (m', Ok n) => merge_refs ins l' m' (dset String.eqb id n mp)
               | (_, Raise e) => Raise e
               end
          else match rm_add m (ref_value r) (ref_comment r) (Some id) with
               | (m', Ok _) => merge_refs ins l' m' mp
               | (_, Raise e) => Raise e
               end
      | Some k => merge_refs ins l' m (if String.eqb id k then mp else dset String.eqb id k mp)
      end
  end.
Definition mapping_of (maps : dict string (dict string string)) (script : string) : dict string string :=
  match dget String.eqb script maps with Some mp => mp | None => [] end.
(** merge_set.py:135-157 merge_references: [setdefault], then the loop (an empty
    manager gives an empty loop). *)
Definition merge_references (refs : refman) (script : string) (m : refman) (maps : dict string (dict string string))
  : res (refman * dict string (dict string string)) :=
  bind (merge_refs (inserted m) (rm_refs refs) m (mapping_of maps script)) (fun p =>
  Ok (fst p, dset String.eqb script (snd p) maps)).
Definition mapped (mp : dict string string) (id : string) : string :=
  match dget String.eqb id mp with Some n => n | None => id end.

(** ** Rules, classes, actions *)
(** merge_set.py:32 MSR_2_RULES. *)
Definition msr_rules : list string := ["leading-combining-mark"].
(** merge_set.py:170-183, 224-229: the new name of a rule. *)
Definition rename_rule (script name : string) : string :=
  if memb String.eqb name msr_rules then with_script "Common" name else with_script script name.
(** merge_set.py:243-269 merge_rules. *)
Definition merge_rules (specific : option string) (script : string) (rules acc : list string) : list string :=
  fold_left (fun acc n =>
    if truthy specific && negb (ostring_eqb specific (Some n)) then acc
    else if memb String.eqb (rename_rule script n) acc then acc else acc ++ [rename_rule script n]) rules acc.
(** merge_set.py:160-185 rename_action. *)
Definition rename_match (script : string) (o : option string) : option string :=
  match o with Some n => if truthy o then Some (rename_rule script n) else o | None => None end.
Definition rename_action (script : string) (a : action) : action :=
  mkAction (a_disp a) (rename_match script (a_match a)) (rename_match script (a_not_match a)) (a_any a) (a_all a) (a_only a).
(** merge_set.py:188-212 merge_actions. *)
Definition merge_actions (script : string) (actions acc : list action) : list action :=
  acc ++ map (rename_action script) (filter (fun a => negb (memb action_eqb a default_actions)) actions).
(** merge_set.py:281, 291-314 merge_classes. *)
Definition merge_classes (script : string) (classes acc : list string) : list string :=
  acc ++ map (with_script script) classes.

(** ** Context rules of code points *)
(** [re.sub('^s', '', w)] and [re.sub('s$', '', w)]. *)
Definition strip_prefix (s w : string) : string :=
  if String.prefix s w then String.substring (String.length s) (String.length w - String.length s) w else w.
Definition strip_suffix (s w : string) : string :=
  let n := (String.length w - String.length s)%nat in
  if String.eqb w (String.substring 0 n w ++ s)%string then String.substring 0 n w else w.
(** merge_set.py:384-391. *)
Definition plain_name (previous : list string) (w : option string) : option string :=
  match w with
  | Some s => if truthy w then Some (fold_left (fun w s => strip_prefix (s ++ "-")%string w) (rev previous) s) else w
  | None => None
  end.
(** merge_set.py:393-413: the new rule, and the (script, rule) to merge. *)
Definition join_context (script : string) (previous : list string) (existing mine : option string) (c : cps)
  : res (option string * option (string * string)) :=
  match mine with
  | Some m =>
      if truthy mine then
        match existing, plain_name previous existing with
        | Some e, Some p =>
            if String.eqb p "" then Ok (Some (with_script script m), None)
            else if String.eqb p m
            then Ok (Some (with_script script e), Some (strip_suffix ("-" ++ p)%string (with_script script e), p))
            else Raise (CharInvalidContextRule c)
        | _, _ => Ok (Some (with_script script m), None)
        end
      else Ok (existing, None)
  | None => Ok (existing, None)
  end.
Definition prefixed (script : string) (o : option string) : option string :=
  match o with Some w => if truthy o then Some (with_script script w) else None | None => None end.

(** ** Code points *)
Fixpoint has_colon (s : string) : bool :=
  match s with EmptyString => false | String a s' => if Ascii.eqb a ":"%char then true else has_colon s' end.
(** merge_set.py:334. *)
Definition rename_tag (script t : string) : string := if has_colon t then t else with_script script t.

Section Order.
  Variable ord_names : list string -> list string.
  Variable ord_variants : list variant -> list variant.

  (** merge_set.py:330-334. *)
  Definition new_tags (ext : option (N -> list string)) (script : string) (ch : char) : list string :=
    let scx := match ext, ch_cp ch with Some f, [x] => f x | _, _ => [] end in
    set_union String.eqb (map (rename_tag script) (ch_tags ch)) scx.

  (** merge_set.py:365-375, 429-440: put the variants on [c]. *)
  Fixpoint put_all (g : lgr) (script : string) (mp : dict string string) (c : cps) (vs : list variant) : res lgr :=
    match vs with
    | [] => Ok g
    | v :: vs' =>
        bind (finished (put_variant g c (v_cp v) blocked (prefixed script (v_when v)) (prefixed script (v_not_when v))
                          (v_comment v) (map (mapped mp) (v_refs v))))
             (fun g1 => put_all g1 script mp c vs')
    end.

  Definition edit_char (g : lgr) (ch : char) : lgr := set_rep g (rep_put (lg_rep g) (ch_cp ch) ch).
  (** merge_set.py:351-359: drop one variant onto the code point itself. *)
  Fixpoint drop_itself (c : cps) (vs : list variant) : list variant :=
    match vs with [] => [] | v :: vs' => if cps_eqb (v_cp v) c then vs' else v :: drop_itself c vs' end.

  (** What the loop over the code points works on: the merged LGR, its rules,
      and [new_variants] (327). *)
  Record work : Type := mkWork { wk_lgr : lgr; wk_rules : list string; wk_new : list (list variant * list variant) }.

  Section Member.
    Variables (script : string) (previous : list string) (ext : option (N -> list string)).
    Variables (mp : dict string string) (rules : list string).

    Definition more_rules (x : option (string * string)) (acc : list string) : list string :=
      match x with Some (s, n) => merge_rules (Some n) s rules acc | None => acc end.
    (** merge_set.py:339-415: a code point already there. *)
    Definition merge_existing (w : work) (ch : char) : res work :=
      bind (rep_get_char (lg_rep (wk_lgr w)) (ch_cp ch)) (fun ex =>
      let ex1 := mkChar (ch_cp ex) (ch_kind ex) (choose_comment (ch_comment ex) (ch_comment ch))
                        (ord_names (set_union String.eqb (ch_refs ex) (ch_refs ch)))
                        (ord_names (set_union String.eqb (ch_tags ex) (ord_names (new_tags ext script ch))))
                        (ch_when ex) (ch_not_when ex) (ch_variants ex) in
      let new1 := set_diff variant_eqb (get_variants ch) (get_variants ex) in
      let new2 := set_diff variant_eqb (get_variants ex) (get_variants ch) in
      let new1' := drop_itself (ch_cp ex) (ord_variants new1) in
      let new2' := drop_itself (ch_cp ex) (ord_variants new2) in
      let pending := match new1', new2' with
                     | _ :: _, _ :: _ => wk_new w ++ [(new1', new2')]
                     | _, _ => wk_new w
                     end in
      bind (put_all (edit_char (wk_lgr w) ex1) script mp (ch_cp ex) (ord_variants new1)) (fun g1 =>
      bind (join_context script previous (ch_when ex) (ch_when ch) (ch_cp ch)) (fun jw =>
      bind (join_context script previous (ch_not_when ex) (ch_not_when ch) (ch_cp ch)) (fun jn =>
      bind (rep_get_char (lg_rep g1) (ch_cp ch)) (fun ex2 =>
      Ok (mkWork (edit_char g1 (mkChar (ch_cp ex2) (ch_kind ex2) (ch_comment ex2) (ch_refs ex2) (ch_tags ex2) (fst jw) (fst jn) (ch_variants ex2)))
                 (more_rules (snd jn) (more_rules (snd jw) (wk_rules w)))
                 pending)))))).
    (** merge_set.py:417-440: a new code point. *)
    Definition merge_new (w : work) (ch : char) : res work :=
      bind (finished (lgr_add_cp (wk_lgr w) (ch_cp ch) (ch_comment ch) (map (mapped mp) (ch_refs ch))
                        (ord_names (new_tags ext script ch))
                        (prefixed script (ch_when ch)) (prefixed script (ch_not_when ch)) None false false)) (fun g1 =>
      bind (put_all g1 script mp (ch_cp ch) (get_variants ch)) (fun g2 =>
      Ok (mkWork g2 (wk_rules w) (wk_new w)))).
    (** merge_set.py:328-440; [old] are the code points of the merged LGR at the
        beginning. *)
    Fixpoint merge_loop (old : list cps) (w : work) (l : list char) : res work :=
      match l with
      | [] => Ok w
      | ch :: l' =>
          bind (if memb cps_eqb (ch_cp ch) old then merge_existing w ch else merge_new w ch)
               (fun w1 => merge_loop old w1 l')
      end.
  End Member.

  Definition merge_comment : option string := Some "New variant for merge to keep transitivity".
  (** merge_set.py:444-449. *)
  Fixpoint cross_one (g : lgr) (v1 : variant) (l2 : list variant) : res lgr :=
    match l2 with
    | [] => Ok g
    | v2 :: l2' =>
        bind (finished (put_variant g (v_cp v1) (v_cp v2) blocked None None merge_comment [])) (fun g1 =>
        bind (finished (put_variant g1 (v_cp v2) (v_cp v1) blocked None None merge_comment [])) (fun g2 =>
        cross_one g2 v1 l2'))
    end.
  Fixpoint cross_two (g : lgr) (l1 l2 : list variant) : res lgr :=
    match l1 with
    | [] => Ok g
    | v1 :: l1' => bind (cross_one g v1 (ord_variants l2)) (fun g1 => cross_two g1 l1' l2)
    end.
  (** merge_set.py:443-449. *)
  Fixpoint cross_all (g : lgr) (l : list (list variant * list variant)) : res lgr :=
    match l with
    | [] => Ok g
    | (l1, l2) :: l' => bind (cross_two g (ord_variants l1) l2) (fun g1 => cross_all g1 l')
    end.

  (** merge_set.py:317-449 merge_chars. *)
  Definition merge_chars (g e : lgr) (script : string) (previous : list string) (ext : option (N -> list string))
    (mp : dict string string) (rules acc : list string) : res (lgr * list string) :=
    bind (merge_loop script previous ext mp rules (cps_of g) (mkWork g acc []) (rep_iter (lg_rep e))) (fun w =>
    bind (cross_all (wk_lgr w) (wk_new w)) (fun g' => Ok (g', wk_rules w))).

  (** merge_set.py:475-483. *)
  Definition merge_member (previous : list string) (st : merged) (m : member) : res merged :=
    let script := get_script m in
    bind (finished (lgr_expand_ranges (mb_lgr m))) (fun e =>
    bind (merge_references (lg_refs e) script (lg_refs (mg_lgr st)) (mg_map st)) (fun p =>
    bind (merge_chars (set_refs (mg_lgr st) (fst p)) e script previous (mb_extensions m)
                      (mapping_of (snd p) script) (mb_rules m) (mg_rules st)) (fun q =>
    Ok (mkMerged (fst q) (snd p) (merge_actions script (mb_actions m) (mg_actions st))
                 (merge_rules None script (mb_rules m) (snd q))
                 (merge_classes script (mb_classes m) (mg_classes st)))))).
  Fixpoint merge_members (previous : list string) (st : merged) (l : list member) : res merged :=
    match l with
    | [] => Ok st
    | m :: l' => bind (merge_member previous st m) (fun st1 => merge_members (previous ++ [get_script m]) st1 l')
    end.

  (** merge_set.py:463: [replace('und-', 'zzz')]; [skip] characters are part of
      an occurrence. *)
  Fixpoint replace_und (skip : nat) (s : string) : string :=
    match s with
    | EmptyString => EmptyString
    | String a s' =>
        match skip with
        | S k => replace_und k s'
        | O => if String.prefix "und-" s then ("zzz" ++ replace_und 3 s')%string else String a (replace_und 0 s')
        end
    end.
  Definition script_leb (a b : member) : bool :=
    match String.compare (replace_und 0 (get_script a)) (replace_und 0 (get_script b)) with Gt => false | _ => true end.
  (** merge_set.py:452-483 merge_lgr_set. *)
  Definition merge_lgr_set (l : list member) : res merged :=
    merge_members [] (mkMerged (new_lgr None false) [] [] [] []) (isort script_leb l).
End Order.
