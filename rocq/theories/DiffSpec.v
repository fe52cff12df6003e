(** What a comparison of LGRs has to say, independently of how it is made. *)
From Verif Require Import Base CharModel RepSpec UtilsModel RefModel ActionModel LgrModel MetaModel CompareModel CompareSpec DiffModel.
From Coq Require Import Permutation.

(** Any order of enumeration of sets. *)
Definition any_order (order : forall A : Type, list A -> list A) : Prop := forall A l, Permutation (order A l) l.

(** What is said about two values, and about two sets [P] and [Q]. *)
Definition value_report {A} (show_same : bool) (a b : A) (s : shown A) : Prop :=
  match s with
  | Nothing => show_same = false /\ a = b
  | Differ x y => a <> b /\ x = a /\ y = b
  | Alike x => show_same = true /\ a = b /\ x = a
  end.
Definition set_report {A} (show_same : bool) (P Q : A -> Prop) (s : shown_set A) : Prop :=
  match s with
  | SNothing => show_same = false /\ forall x, P x <-> Q x
  | SDiffer l1 l2 => NoDup l1 /\ NoDup l2 /\ (forall x, In x l1 <-> P x /\ ~ Q x) /\ (forall x, In x l2 <-> Q x /\ ~ P x) /\ (l1 <> [] \/ l2 <> [])
  | SAlike l => show_same = true /\ NoDup l /\ (forall x, In x l <-> P x) /\ forall x, P x <-> Q x
  end.

(** Missing versions and descriptions are said, whatever the other is. *)
Definition version_report (show_same : bool) (a b : option version) (o : option version_diff) : Prop :=
  match a, b with
  | Some x, Some y => exists v c, value_report show_same (ver_value x) (ver_value y) v /\ value_report show_same (ver_comment x) (ver_comment y) c /\
      ((o = None /\ v = Nothing /\ c = Nothing) \/ (o = Some (mkVd false false v c) /\ ~ (v = Nothing /\ c = Nothing)))
  | Some _, None => o = Some (mkVd false true Nothing Nothing)
  | None, Some _ => o = Some (mkVd true false Nothing Nothing)
  | None, None => o = Some (mkVd true true Nothing Nothing)
  end.
Definition description_report (show_same : bool) (a b : option description) (o : option description_diff) : Prop :=
  match a, b with
  | Some x, Some y => exists t v, value_report show_same (desc_type x) (desc_type y) t /\ value_report show_same (desc_value x) (desc_value y) v /\
      ((o = None /\ t = Nothing /\ v = Nothing) \/ (o = Some (mkDd false false t v) /\ ~ (t = Nothing /\ v = Nothing)))
  | Some _, None => o = Some (mkDd false true Nothing Nothing)
  | None, Some _ => o = Some (mkDd true false Nothing Nothing)
  | None, None => o = Some (mkDd true true Nothing Nothing)
  end.
Definition nothing_said : metadata_diff := mkMd None None SNothing SNothing Nothing Nothing Nothing Nothing.
Definition metadata_report (show_same : bool) (a b : metadata) (o : option metadata_diff) : Prop :=
  exists d, ((o = None /\ d = nothing_said) \/ (o = Some d /\ d <> nothing_said)) /\
    version_report show_same (md_version a) (md_version b) (mf_version d) /\
    description_report show_same (md_description a) (md_description b) (mf_description d) /\
    set_report show_same (fun s => In s (md_scopes a)) (fun s => In s (md_scopes b)) (mf_scopes d) /\
    set_report show_same (fun l => In l (md_languages a)) (fun l => In l (md_languages b)) (mf_languages d) /\
    value_report show_same (md_date a) (md_date b) (mf_date d) /\
    value_report show_same (md_start a) (md_start b) (mf_start d) /\
    value_report show_same (md_end a) (md_end b) (mf_end d) /\
    value_report show_same (md_unicode a) (md_unicode b) (mf_unicode d).

(** The variants of an entry, without their references. *)
Definition has_props (ch : char) (p : vprops) : Prop :=
  exists v, In v (get_variants ch) /\ p = mkVp (v_cp v) (v_type v) (v_when v) (v_not_when v) (v_comment v).
(** Entries between which nothing is said to differ. *)
Definition alike (a b : char) : Prop :=
  ch_comment a = ch_comment b /\ ch_tags a = ch_tags b /\ forall p, has_props a p <-> has_props b p.
Definition char_report (show_same : bool) (a b : char) (d : char_diff) : Prop :=
  value_report show_same (ch_comment a) (ch_comment b) (cd_comment d) /\
  value_report show_same (ch_tags a) (ch_tags b) (cd_tags d) /\
  set_report show_same (has_props a) (has_props b) (cd_variants d).

Definition ref_text (g : lgr) (t : string) : Prop := exists id r, In (id, r) (rm_refs (lg_refs g)) /\ ref_value r = t.
Definition in_both (d1 d2 : doc) (c : cps) (a b : char) : Prop := entry_of d1 c = Some a /\ entry_of d2 c = Some b.
(** The comparison of two LGRs. *)
Record reports (show_same : bool) (d1 d2 : doc) (r : lgr_diff) : Prop := mkReports {
  r_metadata : metadata_report show_same (doc_meta d1) (doc_meta d2) (ld_metadata r);
  r_references : set_report show_same (ref_text (doc_lgr d1)) (ref_text (doc_lgr d2)) (ld_references r);
  r_repertoire : set_report show_same (fun c => entry_of d1 c <> None) (fun c => entry_of d2 c <> None) (ld_repertoire r);
  r_common_once : NoDup (map fst (ld_common r));
  r_common : forall c d, In (c, d) (ld_common r) ->
    exists a b, in_both d1 d2 c a b /\ (show_same = true \/ ~ alike a b) /\ char_report show_same a b d;
  r_common_all : forall c a b, in_both d1 d2 c a b -> show_same = true \/ ~ alike a b -> exists d, In (c, d) (ld_common r);
  r_identical : exists l, NoDup l /\ (forall c, In c l <-> exists a b, in_both d1 d2 c a b /\ alike a b) /\
    ld_identical r = (if show_same then None else match length l with O => None | n => Some n end);
  r_actions : set_report false (fun t => exists a, In a (doc_actions d1) /\ a_disp a = t) (fun t => exists a, In a (doc_actions d2) /\ a_disp a = t) (ld_actions r);
  r_rules : set_report false (fun t => In t (doc_rules d1)) (fun t => In t (doc_rules d2)) (ld_rules r);
  r_classes : set_report false (fun t => In t (doc_classes d1)) (fun t => In t (doc_classes d2)) (ld_classes r) }.

(** The script of an LGR of a set. *)
Definition script_of (d : doc) (s : cps) : Prop := exists rest, md_languages (doc_meta d) = s :: rest.
Inductive with_script (s : cps) : list doc -> list doc -> Prop :=
| ws_end : with_script s [] []
| ws_yes : forall d l l', script_of d s -> with_script s l l' -> with_script s (d :: l) (d :: l')
| ws_no : forall d l l', ~ script_of d s -> with_script s l l' -> with_script s (d :: l) l'.
Definition has_script (l : list doc) (s : cps) : Prop := exists d, In d l /\ script_of d s.
(** All comparisons of an LGR of [l1] with one of [l2], in order. *)
Definition compared (show_same : bool) (l1 l2 : list doc) (out : list (string * string * lgr_diff)) : Prop :=
  Forall2 (fun (p : doc * doc) x => fst x = (doc_name (fst p), doc_name (snd p)) /\ reports show_same (fst p) (snd p) (snd x))
          (list_prod l1 l2) out.
Definition lacking (l1 l2 : list doc) (out : list (cps * list string)) : Prop :=
  NoDup (map fst out) /\ (forall s, In s (map fst out) <-> has_script l1 s /\ ~ has_script l2 s) /\
  forall s names, In (s, names) out -> exists l, with_script s l1 l /\ names = map doc_name l.

(** What a comparison leaves of its arguments: ranges may be split into their
    code points, nothing else changes. *)
Definition twin (a a' : char) : Prop := ch_comment a' = ch_comment a /\ ch_tags a' = ch_tags a /\ get_variants a' = get_variants a /\
  ch_cp a' = ch_cp a /\ ch_refs a' = ch_refs a /\ ch_when a' = ch_when a /\ ch_not_when a' = ch_not_when a.
Definition same_doc (d d' : doc) : Prop :=
  doc_name d' = doc_name d /\ doc_meta d' = doc_meta d /\ doc_actions d' = doc_actions d /\ doc_rules d' = doc_rules d /\ doc_classes d' = doc_classes d /\
  lg_refs (doc_lgr d') = lg_refs (doc_lgr d) /\
  (forall c, entry_of d' c <> None <-> entry_of d c <> None) /\
  (forall c a a', entry_of d c = Some a -> entry_of d' c = Some a' -> twin a a').
