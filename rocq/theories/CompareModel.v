(** Model of lgr/tools/compare/union.py and intersect.py.  No proofs here.

    The order in which Python enumerates a set is unspecified: every loop over
    a set goes through a field of [orders], an arbitrary rearrangement.  An LGR
    document ([doc]) adds to the editing state of LgrModel the metadata, the
    actions and the names and XML texts of rules and classes, which is all the
    union and the intersection look at.  Log messages dropped. *)
From Verif Require Import Base CharModel UtilsModel RefModel ActionModel LgrModel Rfc7940Model ValidateModel PopulateModel MetaModel.
Open Scope string_scope.
Open Scope list_scope.

Record orders : Type := mkOrders {
  ord_cps : list cps -> list cps;
  ord_variants : list variant -> list variant;
  ord_names : list string -> list string;
  ord_actions : list action -> list action;
  ord_scopes : list scope -> list scope
}.

(** core.py:84-142: the parts of an LGR that are read or written here. *)
Record doc : Type := mkDoc {
  doc_name : string;
  doc_lgr : lgr;
  doc_meta : metadata;
  doc_actions : list action;
  doc_actions_xml : list string;
  doc_rules : list string;
  doc_rules_xml : list string;
  doc_classes : list string;
  doc_classes_xml : list string
}.

(** lgr/utils.py:175-202 let_user_choose, on comments and on texts. *)
Definition choose_comment (first second : option string) : option string :=
  match first, second with
  | None, _ => second
  | _, None => first
  | Some a, Some b => if String.eqb a b then first else Some (a ++ "|" ++ b)%string
  end.
Definition choose_text (first second : option cps) : option cps :=
  match first, second with
  | None, _ => second
  | _, None => first
  | Some a, Some b => if cps_eqb a b then first else Some (a ++ [124] ++ b)
  end.
Definition choose_value (a b : cps) : cps := if cps_eqb a b then a else a ++ [124] ++ b.

(** compare/utils.py:27-53 compare_objects, with max and min on texts; max and
    min return their first argument on ties. *)
Definition compare_objects (pick : cps -> cps -> cps) (first second : option cps) : option cps :=
  match first, second with
  | None, _ => second
  | _, None => first
  | Some a, Some b => Some (pick a b)
  end.
Definition text_max (a b : cps) : cps := if text_gtb b a then b else a.
Definition text_min (a b : cps) : cps := if text_gtb a b then b else a.

(** metadata.py:94-96, 115-117, 143-145: equality. *)
Definition otext_eqb (a b : option cps) : bool :=
  match a, b with Some x, Some y => cps_eqb x y | None, None => true | _, _ => false end.
Definition version_eqb (a b : version) : bool :=
  cps_eqb (ver_value a) (ver_value b) && otext_eqb (ver_comment a) (ver_comment b).
Definition scope_eqb (a b : scope) : bool :=
  cps_eqb (sc_value a) (sc_value b) && otext_eqb (sc_type a) (sc_type b).
Definition description_eqb (a b : description) : bool :=
  cps_eqb (desc_value a) (desc_value b) && otext_eqb (desc_type a) (desc_type b).

(** ** Metadata *)
(** union.py:21-41 union_version, intersect.py:20-36 intersect_version (the
    same but for the test of equality). *)
Definition union_version (first second : option version) : option version :=
  match first, second with
  | None, _ => second
  | _, None => first
  | Some a, Some b =>
      if version_eqb a b then first
      else Some (mkVersion (choose_value (ver_value a) (ver_value b)) (choose_text (ver_comment a) (ver_comment b)))
  end.
Definition intersect_version (first second : option version) : option version :=
  match first, second with
  | None, _ => second
  | _, None => first
  | Some a, Some b =>
      Some (mkVersion (choose_value (ver_value a) (ver_value b)) (choose_text (ver_comment a) (ver_comment b)))
  end.

Definition shown_type (t : option cps) : cps := match t with Some s => s | None => txt "None" end.
(** union.py:66-74: the text for different media types; [dot] is the only
    difference with intersect.py:62-71. *)
Definition both_descriptions (dot : cps) (a b : description) : cps :=
  [10] ++ txt "Original MIME-type for first description: '" ++ shown_type (desc_type a) ++ dot ++ [10]
  ++ desc_value a ++ [10; 10] ++ txt "----" ++ [10; 10]
  ++ txt "Original MIME-type for second description: '" ++ shown_type (desc_type b) ++ txt "'." ++ [10]
  ++ desc_value b ++ [10].
Definition is_html (d : description) : bool := otext_eqb (desc_type d) (Some (txt "text/html")).
(** union.py:44-76 union_description. *)
Definition union_description (first second : option description) : option description :=
  match first, second with
  | None, _ => second
  | _, None => first
  | Some a, Some b =>
      if description_eqb a b then first
      else if is_html a && is_html b
      then Some (mkDesc (desc_value a ++ [10] ++ desc_value b) (Some (txt "text/html")))
      else Some (mkDesc (both_descriptions (txt "':") a b) (Some (txt "text/enriched")))
  end.
(** intersect.py:39-71 intersect_description. *)
Definition intersect_description (first second : option description) : option description :=
  match first, second with
  | None, _ => second
  | _, None => first
  | Some a, Some b =>
      if otext_eqb (desc_type a) (desc_type b)
      then Some (mkDesc (choose_value (desc_value a) (desc_value b)) (desc_type a))
      else Some (mkDesc (both_descriptions (txt "'.") a b) (Some (txt "text/enriched")))
  end.

(** set.union / set.intersection; an element of the first set is the one kept. *)
Definition set_union {A} (eqb : A -> A -> bool) (a b : list A) : list A := dedup eqb (a ++ b).
Definition set_inter {A} (eqb : A -> A -> bool) (a b : list A) : list A :=
  filter (fun x => memb eqb x b) (dedup eqb a).
Definition set_diff {A} (eqb : A -> A -> bool) (a b : list A) : list A :=
  filter (fun x => negb (memb eqb x b)) (dedup eqb a).

(** union.py:79-113 union_metadata; both scope sets are the first's. *)
Definition union_metadata (o : orders) (today : cps) (first second : metadata) : metadata :=
  mkMeta (match md_version first with Some _ => union_version (md_version first) (md_version second) | None => None end)
         (Some today)
         (ord_cps o (set_union cps_eqb (md_languages first) (md_languages second)))
         (ord_scopes o (set_union scope_eqb (md_scopes first) (md_scopes first)))
         (compare_objects text_max (md_start first) (md_start second))
         (compare_objects text_min (md_end first) (md_end second))
         (compare_objects text_max (md_unicode first) (md_unicode second))
         (match md_description first with
          | Some _ => union_description (md_description first) (md_description second)
          | None => None end)
         [].
(** intersect.py:74-105 intersect_metadata. *)
Definition intersect_metadata (o : orders) (today : cps) (first second : metadata) : metadata :=
  mkMeta (intersect_version (md_version first) (md_version second))
         (Some today)
         (ord_cps o (set_inter cps_eqb (md_languages first) (md_languages second)))
         (ord_scopes o (set_inter scope_eqb (md_scopes first) (md_scopes first)))
         (compare_objects text_max (md_start first) (md_start second))
         (compare_objects text_min (md_end first) (md_end second))
         (compare_objects text_max (md_unicode first) (md_unicode second))
         (intersect_description (md_description first) (md_description second))
         [].

(** ** References: union.py:116-133, intersect.py:108-125. *)
Definition ref_values (m : refman) : list string := map (fun kv : string * reference => ref_value (snd kv)) (rm_refs m).
Fixpoint add_references (m : refman) (l : list string) : res refman :=
  match l with
  | [] => Ok m
  | v :: l' => match rm_add m v None None with
               | (m', Ok _) => add_references m' l'
               | (_, Raise e) => Raise e
               end
  end.

(** ** Code points *)
(** add_variant(cp, v.cp, variant_type, when, not_when, comment), for every
    variant of a list. *)
Definition copy_variant (g : lgr) (c : cps) (v : variant) : lgr * res unit :=
  put_variant g c (v_cp v) (v_type v) (v_when v) (v_not_when v) (v_comment v) [].
(** add_cp(cp, comment, tag, when, not_when), then its variants. *)
Definition add_entry (g : lgr) (c : cps) (comment : option string) (tags : list string) (when_ not_when : option string)
  (vs : list variant) : lgr * res unit :=
  andthen (lgr_add_cp g c comment [] tags when_ not_when None false false) (fun g1 => each_variant copy_variant g1 c vs).

(** for cp in ...: body *)
Fixpoint each_cp (f : lgr -> cps -> lgr * res unit) (g : lgr) (l : list cps) : lgr * res unit :=
  match l with
  | [] => (g, Ok tt)
  | c :: l' => andthen (f g c) (fun g' => each_cp f g' l')
  end.

(** union.py:135-152 union_char. *)
Definition union_char (o : orders) (g : lgr) (a b : char) : lgr * res unit :=
  add_entry g (ch_cp a) (choose_comment (ch_comment a) (ch_comment b))
            (ord_names o (set_union String.eqb (ch_tags a) (ch_tags b))) None None
            (ord_variants o (set_union variant_eqb (get_variants a) (get_variants b))).
(** intersect.py:128-147 intersect_char: the variants are rebuilt from their
    code points and contexts. *)
Definition bare (v : variant) : variant := mkVariant (v_cp v) None (v_when v) (v_not_when v) None [].
Definition intersect_char (o : orders) (g : lgr) (a b : char) : lgr * res unit :=
  add_entry g (ch_cp a) (choose_comment (ch_comment a) (ch_comment b))
            (ord_names o (set_inter String.eqb (ch_tags a) (ch_tags b))) None None
            (ord_variants o (set_inter variant_eqb (map bare (get_variants a)) (map bare (get_variants b)))).

Definition with_chars (g1 g2 : lgr) (f : lgr -> char -> char -> lgr * res unit) (g : lgr) (c : cps) : lgr * res unit :=
  match lgr_get_char g1 c with
  | Raise e => (g, Raise e)
  | Ok a => match lgr_get_char g2 c with
            | Raise e => (g, Raise e)
            | Ok b => f g a b
            end
  end.
Definition with_char (g1 : lgr) (f : lgr -> char -> lgr * res unit) (g : lgr) (c : cps) : lgr * res unit :=
  match lgr_get_char g1 c with
  | Raise e => (g, Raise e)
  | Ok a => f g a
  end.
(** union.py:328-335: a code point of the first LGR only. *)
Definition copy_first (g : lgr) (a : char) : lgr * res unit :=
  add_entry g (ch_cp a) (ch_comment a) (ch_tags a) (ch_when a) (ch_not_when a) [].
(** union.py:337-349: a code point of the second LGR only. *)
Definition copy_second (g : lgr) (a : char) : lgr * res unit :=
  add_entry g (ch_cp a) (ch_comment a) (ch_tags a) (ch_when a) (ch_not_when a) (get_variants a).

Definition cps_of (g : lgr) : list cps := map ch_cp (rep_iter (lg_rep g)).
(** union.py:313-349. *)
Definition union_repertoire (o : orders) (g1 g2 g : lgr) : lgr * res unit :=
  let c1 := cps_of g1 in
  let c2 := cps_of g2 in
  andthen (each_cp (with_chars g1 g2 (union_char o)) g (ord_cps o (set_inter cps_eqb c1 c2))) (fun g =>
  andthen (each_cp (with_char g1 copy_first) g (ord_cps o (set_diff cps_eqb c1 c2))) (fun g =>
  each_cp (with_char g2 copy_second) g (ord_cps o (set_diff cps_eqb c2 c1)))).
(** intersect.py:261-269. *)
Definition intersect_repertoire (o : orders) (g1 g2 g : lgr) : lgr * res unit :=
  each_cp (with_chars g1 g2 (intersect_char o)) g (ord_cps o (set_inter cps_eqb (cps_of g1) (cps_of g2))).

(** ** Actions *)
(** action.py:143-149 Action.__eq__; the type lists are frozensets. *)
Definition subset_b (a b : list string) : bool := forallb (fun x => memb String.eqb x b) a.
Definition types_eqb (a b : option (list string)) : bool :=
  match a, b with
  | Some x, Some y => subset_b x y && subset_b y x
  | None, None => true
  | _, _ => false
  end.
Definition action_eqb (a b : action) : bool :=
  String.eqb (a_disp a) (a_disp b) && ostring_eqb (a_match a) (a_match b)
  && ostring_eqb (a_not_match a) (a_not_match b) && types_eqb (a_any a) (a_any b)
  && types_eqb (a_all a) (a_all b) && types_eqb (a_only a) (a_only b).

(** union.py:155-180 union_actions. *)
Definition union_actions (d1 d2 : doc) : list action * list string :=
  (dedup action_eqb (doc_actions d1 ++ doc_actions d2), dedup String.eqb (doc_actions_xml d1 ++ doc_actions_xml d2)).

(** list.index, then indexing the parallel list of XML texts. *)
Fixpoint index_of {A} (eqb : A -> A -> bool) (x : A) (l : list A) : option nat :=
  match l with
  | [] => None
  | y :: l' => if eqb x y then Some O else option_map S (index_of eqb x l')
  end.
Definition xml_of {A} (eqb : A -> A -> bool) (l : list A) (xml : list string) (x : A) : res string :=
  match index_of eqb x l with
  | None => Raise ValueError
  | Some i => match nth_error xml i with Some t => Ok t | None => Raise IndexError end
  end.
(** intersect.py:150-167 intersect_actions. *)
Definition intersect_actions (o : orders) (d1 d2 : doc) : res (list action * list string) :=
  let acts := ord_actions o (set_inter action_eqb (doc_actions d1) (doc_actions d2)) in
  bind (mapM_res (xml_of action_eqb (doc_actions d1) (doc_actions_xml d1)) acts) (fun xml => Ok (acts, xml)).

(** ** Rules and classes *)
(** s.replace(old, new): non-overlapping, from the left; an empty [old] matches
    between all characters.  [skip] characters are already replaced. *)
Fixpoint replace_from (old new_ : string) (skip : nat) (s : string) : string :=
  match s with
  | EmptyString => if String.eqb old "" then new_ else ""
  | String a r =>
      match skip with
      | S k => replace_from old new_ k r
      | O => if String.eqb old "" then (new_ ++ String a (replace_from old new_ 0 r))%string
             else if prefix old s then (new_ ++ replace_from old new_ (String.length old - 1) r)%string
             else String a (replace_from old new_ 0 r)
      end
  end.
Definition str_replace (s old new_ : string) : string := replace_from old new_ 0 s.

(** union.py:203-221 and 254-272, intersect.py:186-203 and 224-241: the names
    defined in both LGRs. *)
Fixpoint common_names (n1 x1 n2 x2 : list string) (l : list string) : res (list string * list string) :=
  match l with
  | [] => Ok ([], [])
  | n :: l' =>
      bind (xml_of String.eqb n1 x1 n) (fun a =>
      bind (xml_of String.eqb n2 x2 n) (fun b =>
      bind (common_names n1 x1 n2 x2 l') (fun r =>
      if String.eqb a b then Ok (n :: fst r, a :: snd r)
      else Ok ((n ++ "_1")%string :: (n ++ "_2")%string :: fst r,
               str_replace a n (n ++ "_1")%string :: str_replace b n (n ++ "_2")%string :: snd r))))
  end.
Definition own_names (n1 x1 l : list string) : res (list string * list string) :=
  bind (mapM_res (xml_of String.eqb n1 x1) l) (fun x => Ok (l, x)).
Definition append_names (a b : list string * list string) : list string * list string :=
  (fst a ++ fst b, snd a ++ snd b).
(** union.py:183-230 union_rules, 233-281 union_classes. *)
Definition union_names (o : orders) (n1 x1 n2 x2 : list string) : res (list string * list string) :=
  bind (common_names n1 x1 n2 x2 (ord_names o (set_inter String.eqb n1 n2))) (fun a =>
  bind (own_names n1 x1 (ord_names o (set_diff String.eqb n1 n2))) (fun b =>
  bind (own_names n2 x2 (ord_names o (set_diff String.eqb n2 n1))) (fun c =>
  Ok (append_names a (append_names b c))))).
(** intersect.py:170-205 intersect_rules, 208-243 intersect_classes. *)
Definition intersect_names (o : orders) (n1 x1 n2 x2 : list string) : res (list string * list string) :=
  common_names n1 x1 n2 x2 (ord_names o (set_inter String.eqb n1 n2)).

(** ** Whole LGRs *)
Definition set_doc_lgr (d : doc) (g : lgr) : doc :=
  mkDoc (doc_name d) g (doc_meta d) (doc_actions d) (doc_actions_xml d) (doc_rules d) (doc_rules_xml d)
        (doc_classes d) (doc_classes_xml d).

(** Common part of union.py:284-361 and intersect.py:246-283: expand the
    ranges of both inputs, then combine. *)
Definition combine_lgrs (body : doc -> doc -> res doc) (d1 d2 : doc) : doc * doc * res doc :=
  match lgr_expand_ranges (doc_lgr d1) with
  | (g1, Raise e) => (set_doc_lgr d1 g1, d2, Raise e)
  | (g1, Ok _) =>
      match lgr_expand_ranges (doc_lgr d2) with
      | (g2, Raise e) => (set_doc_lgr d1 g1, set_doc_lgr d2 g2, Raise e)
      | (g2, Ok _) =>
          let d1 := set_doc_lgr d1 g1 in
          let d2 := set_doc_lgr d2 g2 in
          (d1, d2, body d1 d2)
      end
  end.

(** union.py:300-361. *)
Definition union_body (o : orders) (today : cps) (d1 d2 : doc) : res doc :=
  bind (add_references empty_refman
          (ord_names o (set_union String.eqb (ref_values (lg_refs (doc_lgr d1))) (ref_values (lg_refs (doc_lgr d2))))))
  (fun refs =>
  match union_repertoire o (doc_lgr d1) (doc_lgr d2) (set_refs (new_lgr None false) refs) with
  | (_, Raise e) => Raise e
  | (g, Ok _) =>
      let '(acts, acts_xml) := union_actions d1 d2 in
      bind (union_names o (doc_rules d1) (doc_rules_xml d1) (doc_rules d2) (doc_rules_xml d2)) (fun rules =>
      bind (union_names o (doc_classes d1) (doc_classes_xml d1) (doc_classes d2) (doc_classes_xml d2)) (fun classes =>
      Ok (mkDoc ("Union of " ++ doc_name d1 ++ " and " ++ doc_name d2) g
                (union_metadata o today (doc_meta d1) (doc_meta d2)) acts acts_xml
                (fst rules) (snd rules) (fst classes) (snd classes))))
  end).
Definition union_lgrs (o : orders) (today : cps) (d1 d2 : doc) : doc * doc * res doc :=
  combine_lgrs (union_body o today) d1 d2.

(** intersect.py:256-283. *)
Definition intersect_body (o : orders) (today : cps) (d1 d2 : doc) : res doc :=
  bind (add_references empty_refman
          (ord_names o (set_inter String.eqb (ref_values (lg_refs (doc_lgr d1))) (ref_values (lg_refs (doc_lgr d2))))))
  (fun refs =>
  match intersect_repertoire o (doc_lgr d1) (doc_lgr d2) (set_refs (new_lgr None false) refs) with
  | (_, Raise e) => Raise e
  | (g, Ok _) =>
      bind (intersect_actions o d1 d2) (fun acts =>
      bind (intersect_names o (doc_rules d1) (doc_rules_xml d1) (doc_rules d2) (doc_rules_xml d2)) (fun rules =>
      bind (intersect_names o (doc_classes d1) (doc_classes_xml d1) (doc_classes d2) (doc_classes_xml d2)) (fun classes =>
      Ok (mkDoc ("Intersection of " ++ doc_name d1 ++ " and " ++ doc_name d2) g
                (intersect_metadata o today (doc_meta d1) (doc_meta d2)) (fst acts) (snd acts)
                (fst rules) (snd rules) (fst classes) (snd classes)))))
  end).
Definition intersect_lgrs (o : orders) (today : cps) (d1 d2 : doc) : doc * doc * res doc :=
  combine_lgrs (intersect_body o today) d1 d2.
