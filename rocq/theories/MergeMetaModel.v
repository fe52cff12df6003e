(** Model of the metadata of a merged set (lgr/tools/merge_set.py:36-132).
    No proofs here.  A member is its metadata; its description's types are any
    texts. *)
From Verif Require Import Base UtilsModel MetaModel CompareModel.
Open Scope string_scope.
Open Scope list_scope.

(** OrderedDict.update(OrderedDict.fromkeys(l)): the keys. *)
Definition add_key {A} (eqb : A -> A -> bool) (keys : list A) (x : A) : list A :=
  if memb eqb x keys then keys else keys ++ [x].
Definition add_keys {A} (eqb : A -> A -> bool) (keys l : list A) : list A := fold_left (add_key eqb) l keys.
Definition nonempty_text (s : cps) : bool := match s with [] => false | _ => true end.

(** merge_set.py:36-40 get_script. *)
Definition meta_script (m : metadata) : cps := match md_languages m with [] => [] | l :: _ => l end.

(** merge_set.py:43-60 merge_version. *)
Fixpoint merge_versions (values comments : list cps) (l : list metadata) : list cps * list cps :=
  match l with
  | [] => (values, comments)
  | m :: l' =>
      match md_version m with
      | None => merge_versions values comments l'
      | Some v =>
          let values := if nonempty_text (ver_value v) then add_keys cps_eqb values [ver_value v] else values in
          let comments := match ver_comment v with
                          | Some c => if nonempty_text c then add_keys cps_eqb comments [c] else comments
                          | None => comments
                          end in
          merge_versions values comments l'
      end
  end.
Definition merge_version (l : list metadata) : version :=
  let '(values, comments) := merge_versions [] [] l in mkVersion (join [124] values) (Some (join [124] comments)).

(** merge_set.py:63-94 merge_description; format() of None is 'None'. *)
Definition html : cps := txt "text/html".
Definition is_html (d : description) : bool := match desc_type d with Some t => cps_eqb t html | None => false end.
Definition shown_type (d : description) : cps := match desc_type d with Some t => t | None => txt "None" end.
(** merge_set.py:86-89. *)
Definition described (p : cps * description) : cps :=
  [10] ++ txt "Script: '" ++ fst p ++ txt "' - MIME-type: '" ++ shown_type (snd p) ++ txt "':" ++ [10] ++ desc_value (snd p) ++ [10].
Definition merge_description (l : list metadata) : description :=
  let values := flat_map (fun m => match md_description m with Some d => [(meta_script m, d)] | None => [] end) l in
  if forallb (fun p : cps * description => is_html (snd p)) values
  then mkDesc (join [] (map (fun p => desc_value (snd p)) values)) (Some html)
  else mkDesc (join (txt "----" ++ [10]) (map described values)) (Some (txt "text/plain")).

(** merge_set.py:113-125: one member. *)
Definition merge_one (out : metadata) (m : metadata) : metadata :=
  mkMeta (md_version out) (md_date out)
         (add_keys cps_eqb (md_languages out) (md_languages m))
         (add_keys scope_eqb (md_scopes out) (md_scopes m))
         (compare_objects text_max (md_start out) (md_start m))
         (compare_objects text_min (md_end out) (md_end m))
         (compare_objects text_max (md_unicode out) (md_unicode m))
         (md_description out) (md_checks out).
(** merge_set.py:97-132 merge_metadata. *)
Definition merge_metadata (today : cps) (l : list metadata) : metadata :=
  let out := fold_left merge_one l new_metadata in
  mkMeta (Some (merge_version l)) (Some today) (md_languages out) (md_scopes out) (md_start out) (md_end out) (md_unicode out)
         (Some (merge_description l)) (md_checks out).

(** merge_set.py:463: the order of the members, [replace('und-', 'zzz')] on their
    scripts; [skip] characters are part of an occurrence. *)
Fixpoint und_last (skip : nat) (s : cps) : cps :=
  match s with
  | [] => []
  | a :: s' =>
      match skip with
      | S k => und_last k s'
      | O => if cps_eqb (firstn 4 s) (txt "und-") then txt "zzz" ++ und_last 3 s' else a :: und_last 0 s'
      end
  end.
Definition meta_leb (a b : metadata) : bool := cps_leb (und_last 0 (meta_script a)) (und_last 0 (meta_script b)).
(** merge_set.py:452-472 merge_lgr_set: the metadata given to the merged LGR. *)
Definition merge_set_metadata (today : cps) (l : list metadata) : metadata := merge_metadata today (isort meta_leb l).
