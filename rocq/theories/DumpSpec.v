(** Specification vocabulary for the tools that print tables as documents. *)
From Verif Require Import Base UtilsModel CharModel RepSpec RefModel LgrModel LgrSpec MetaModel SerialModel SerialSpec TableModel TableSpec DumpModel.
Open Scope string_scope.
Open Scope list_scope.

(** What the reader takes for decimal digits: the ASCII ones at least, and not
    the dot. *)
Definition knows_digits (dig : N -> bool) : Prop := dig 46 = false /\ forall d, digit d -> dig d = true.

(** Reading [doc] succeeds, and gives metadata and an LGR as [P] says. *)
Definition reads (lang_check : cps -> option bool) (dig : N -> bool) (db : option unidb) (allow force : bool) (doc : xml_doc)
  (P : metadata -> lgr -> Prop) : Prop :=
  exists m g, parse_document lang_check dig db allow force doc = (Some (m, g), Ok tt) /\ P m g.

(** The reader's database accepts all of these code points. *)
Definition accepts (db : option unidb) (allow : bool) (S : N -> Prop) : Prop :=
  allow = true \/ forall x d, S x -> db = Some d -> db_idna_valid d x = true.

(** The code points that a table asks for. *)
Definition asked (evs : list event) (x : N) : Prop :=
  exists e, In e evs /\ match e with ECp c _ => In x c | EVar c v _ _ => In x c \/ In x v | ERef _ _ _ => False end.

(** Nothing but a code point or sequence. *)
Definition nothing_else (ch : char) : Prop :=
  ch_comment ch = None /\ ch_refs ch = [] /\ ch_tags ch = [] /\ ch_when ch = None /\ ch_not_when ch = None /\ get_variants ch = [].

(** No list of citations of the file has the same digit twice. *)
Definition cites_once (lines : list cps) : Prop :=
  forall line pre s ds post, In line lines -> line = pre ++ s ++ post -> citation s ds -> NoDup ds.

(** What the last version line says. *)
Definition last_version (vers : list (N * cps * option cps)) : table_meta :=
  match rev vers with [] => mkTm None None | (d, date, cm) :: _ => mkTm (Some (d, cm)) (Some date) end.

(** ** The registry of IDNA properties *)
Definition kept_property (p : cps) : Prop := p = txt "PVALID" \/ p = txt "CONTEXTO" \/ p = txt "CONTEXTJ".
(** One code point, or two separated by a dash. *)
Definition spans (s : cps) (first last_ : N) : Prop :=
  (s <> [] /\ hex_value s first /\ last_ = first) \/
  exists a b, s = a ++ 45 :: b /\ a <> [] /\ b <> [] /\ hex_value a first /\ hex_value b last_ /\ first <= last_.
Definition lists (r : idna_record) (x : N) : Prop :=
  kept_property (rc_prop r) /\ exists f l, spans (rc_cp r) f l /\ f <= x <= l.
Definition well_formed (recs : list idna_record) : Prop :=
  forall r, In r recs -> kept_property (rc_prop r) -> exists f l, spans (rc_cp r) f l.
(** No code point is listed by two records. *)
Definition listed_once (recs : list idna_record) : Prop :=
  ForallOrdPairs (fun r s => forall x, ~ (lists r x /\ lists s x)) recs.
