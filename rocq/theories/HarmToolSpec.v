(** Specification vocabulary for the harmonization tool. *)
From Verif Require Import Base UtilsModel CharModel RepSpec RefModel LgrModel LgrSpec MetaModel SerialModel SerialSpec ValidateSpec PopulateSpec RulesXmlModel RulesXmlSpec DocModel ReadySpec AgainSpec HarmonizeSpec.
Open Scope string_scope.
Open Scope list_scope.

(** The last part of a path. *)
Definition file_name (path n : string) : Prop :=
  (forall a b, n <> (a ++ "/" ++ b)%string) /\ (path = n \/ exists d, path = (d ++ "/" ++ n)%string).
(** The name the result for a file has: "_harmonized" before the extension. *)
Inductive result_name : string -> string -> Prop :=
| result_xml : forall p, result_name (p ++ ".xml") (p ++ "_harmonized.xml")
| result_other : forall n, (forall p, n <> (p ++ ".xml")%string) -> result_name n (n ++ "_harmonized").

(** Equal but for the comment of the version, which says that the LGR was
    harmonized unless there was one. *)
Definition marked (m m' : metadata) : Prop :=
  (forall v, md_version m = Some v -> exists v', md_version m' = Some v' /\ ver_value v' = ver_value v /\
     (forall c, ver_comment v = Some c -> c <> [] -> ver_comment v' = Some c) /\
     (ver_comment v = None \/ ver_comment v = Some [] -> ver_comment v' = Some (txt " - Harmonized"))) /\
  (md_version m = None -> md_version m' = None) /\
  md_date m' = md_date m /\ md_languages m' = md_languages m /\ md_scopes m' = md_scopes m /\ md_start m' = md_start m /\
  md_end m' = md_end m /\ md_unicode m' = md_unicode m /\ md_description m' = md_description m.
(** What a written file keeps of the LGR it comes from: everything but variants,
    ranges and the mark. *)
Record carried_over (x x' : loaded) : Prop := mkCarried {
  cr_metadata : marked (ld_meta x) (ld_meta x');
  cr_references : rm_refs (lg_refs (ld_lgr x')) = rm_refs (lg_refs (ld_lgr x));
  cr_rules : same_ruleset (ld_rules x) (ld_rules x');
  cr_entries : forall a ch, lookup (lg_rep (ld_lgr x)) a = Some ch -> exists ch', lookup (lg_rep (ld_lgr x')) a = Some ch' /\ same_but_range ch ch';
  cr_variants : forall a b, has_target (lg_rep (ld_lgr x)) a b -> has_target (lg_rep (ld_lgr x')) a b }.

(** A document that is read without complaint and could be written as it is. *)
Definition sound_document (lang_check : cps -> option bool) (dig : N -> bool) (db : option database) (fuel : nat) (d : document) (x : loaded) : Prop :=
  read_document lang_check dig db fuel false false d = Ok (Some x) /\ plain_document d /\ Forall qualified (rules_part d) /\
  (db <> None -> orderly_names (rules_part d)).
(** The schema, if there is one, accepts the document. *)
Definition accepted (schema : option (document -> bool)) (d : document) : Prop :=
  forall valid, schema = Some valid -> valid d = true.
(** One line for each of the code points, in some order. *)
Definition lines_for (l : list cps) (out : list cps) : Prop :=
  exists k, Permutation.Permutation k l /\ out = map (fun c => txt "- " ++ format_cp c ++ txt " (" ++ c ++ txt ")") k.
