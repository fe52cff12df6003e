(** When an LGR document passes the RFC 7940 tool: vocabulary of the
    statements. *)
From Verif Require Import Base UtilsModel CharModel RepSpec ActionModel LgrModel LgrSpec MetaModel MetaSpec SerialModel SerialSpec RulesXmlModel RulesXmlSpec DocModel.
From Verif Require Import ValidateModel ValidateSpec ReportSpec ChecksModel ChecksSpec ReadySpec.
Open Scope string_scope.
Open Scope list_scope.

(** A text of code points that cannot be entered: empty, or with a code point
    that IDNA does not allow. *)
Definition unenterable (u : ucd) (c : cps) : Prop := c = [] \/ exists x, In x c /\ ~ idna_ok u x.
(** Two <var> elements for one variant: the same code points, when and
    not-when. *)
Definition same_variant (v w : var_elem) : Prop :=
  (exists c, parse_cps (ve_cp v) = Ok c /\ parse_cps (ve_cp w) = Ok c) /\ ve_when v = ve_when w /\ ve_not_when v = ve_not_when w.

(** An element of <data> that cannot be taken as written, after [pre]: a code
    point that cannot be entered or that is there already, a variant that cannot
    be entered or is repeated, a range whose last code point comes before the
    first. *)
Inductive refuses (u : ucd) (pre : list data_elem) : data_elem -> Prop :=
| rf_char : forall s a vs c, parse_cps s = Ok c -> unenterable u c -> refuses u pre (DChar s a vs)
| rf_again : forall s a vs c e, parse_cps s = Ok c -> In e pre -> stands_for e c -> refuses u pre (DChar s a vs)
| rf_variant : forall s a vs v c, In v vs -> parse_cps (ve_cp v) = Ok c -> unenterable u c -> refuses u pre (DChar s a vs)
| rf_variant_again : forall s a pv v qv w, In w pv -> same_variant v w -> refuses u pre (DChar s a (pv ++ v :: qv))
| rf_range : forall f la a vs x y, parse_cp f = Ok x -> parse_cp la = Ok y -> y < x -> refuses u pre (DRange f la a vs).
Definition rejected (u : ucd) (l : list data_elem) : Prop := exists pre e post, l = pre ++ e :: post /\ refuses u pre e.

Definition meta_part (d : document) : list meta_elem := match dc_meta d with Some l => l | None => [] end.
(** The version of the document, the last <version>, has no text. *)
Definition empty_version (d : document) : Prop := exists pre c post, meta_part d = pre ++ MVersion None c :: post /\ forall t c', ~ In (MVersion t c') post.

Section Faults.
  Variable lang_check : cps -> option bool.
  Variable dig : N -> bool.
  Variable mime : cps -> bool.
  Variable today : cps.
  Variable u : ucd.

  (** What makes the document fail: [x] is the LGR read, [rng] and [test] the
      options. *)
  Inductive faulty (rng : option bool) (test : bool) (d : document) (x : loaded) : Prop :=
  | fa_schema : rng = None -> faulty rng test d x
  | fa_test : test = true -> faulty rng test d x
  | fa_no_language : (forall t, ~ In (MLanguageE t) (meta_part d)) -> faulty rng test d x
  | fa_language : forall t, In (MLanguageE t) (meta_part d) -> lang_check (value_of t) <> Some true -> faulty rng test d x
  | fa_meta : In MOtherE (meta_part d) -> faulty rng test d x
  | fa_rules : forall e, In e (rules_part d) -> noticed e -> faulty rng test d x
  | fa_data : rejected u (dc_data d) -> faulty rng test d x
  | fa_expired : forall e, md_end (ld_meta x) = Some e -> before e today -> faulty rng test d x
  | fa_interval : forall s e, md_start (ld_meta x) = Some s -> md_end (ld_meta x) = Some e -> before e s -> faulty rng test d x
  | fa_future : forall s, md_start (ld_meta x) = Some s -> before today s -> faulty rng test d x
  | fa_description : forall t c, md_description (ld_meta x) = Some t -> desc_type t = Some c -> mime c = false -> faulty rng test d x
  | fa_scope : forall s t, In s (md_scopes (ld_meta x)) -> sc_type s = Some t -> t <> txt "domain" -> faulty rng test d x
  | fa_disposition : ~ (forall a, In a (ru_actions (ld_rules x)) -> standard (a_disp a)) -> faulty rng test d x
  | fa_only_ranges : (forall c ch, lookup (lg_rep (ld_lgr x)) c = Some ch -> is_range ch = true) -> faulty rng test d x
  | fa_type : ~ (forall t, used_type (ld_lgr x) t -> ~ unusable t) -> faulty rng test d x
  | fa_unicode : md_unicode (ld_meta x) <> Some (ucd_version u) -> faulty rng test d x.

  (** What makes it pass with a warning only. *)
  Inductive doubtful (d : document) (x : loaded) : Prop :=
  | do_version : forall v, md_version (ld_meta x) = Some v -> ~ positive_integer dig (ver_value v) -> doubtful d x
  | do_order : forall cs a b, chars_of (dc_data d) cs -> follows a b cs -> ~ before a b -> ~ begins b a -> doubtful d x
  | do_references : ~ (forall refs, used_refs (ld_lgr x) refs -> ascending refs) -> doubtful d x
  | do_asymmetric : forall a b v p, mapping (lg_rep (ld_lgr x)) a b v -> sym_violation (lg_rep (ld_lgr x)) false a v p -> doubtful d x
  | do_gap : forall a c, gap (lg_rep (ld_lgr x)) a c -> doubtful d x.
End Faults.
