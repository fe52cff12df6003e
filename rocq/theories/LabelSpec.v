(** Specification of how a label is cut into repertoire entries, of its
    variants and of its index. *)
From Verif Require Import Base CharModel RepSpec ActionModel ActionSpec LabelModel.

(** The context rule of an entry or variant [c] placed at position [i]. *)
Definition context_holds (rm : rule_oracle) (w nw : option string) (c label : cps) (i : nat) : Prop :=
  match w, nw with
  | Some rule, _ => rm rule label (Some (c, i)) = true
  | None, Some rule => rm rule label (Some (c, i)) = false
  | None, None => True
  end.

Definition entry (r : repertoire) (ch : char) : Prop := lookup r (ch_cp ch) = Some ch.

(** The code points [c] occur in [label] at position [i]. *)
Definition occurs_at (label : cps) (i : nat) (c : cps) : Prop :=
  exists pre post, label = pre ++ c ++ post /\ length pre = i.

(** Entry [ch] can be used at position [i] of [label]. *)
Definition applies (rm : rule_oracle) (r : repertoire) (label : cps) (i : nat) (ch : char) : Prop :=
  entry r ch /\ occurs_at label i (ch_cp ch) /\
  context_holds rm (ch_when ch) (ch_not_when ch) (ch_cp ch) label i.

(** [l] cuts [label], from position [i] to its end, into applicable entries. *)
Inductive cut (rm : rule_oracle) (r : repertoire) (label : cps) : nat -> list char -> Prop :=
| cut_end : cut rm r label (length label) []
| cut_cons : forall i ch l, applies rm r label i ch ->
    cut rm r label (i + length (ch_cp ch))%nat l -> cut rm r label i (ch :: l).

(** The rules reported for a position where every matching entry fails. *)
Definition reported_rule (ch : char) (s : option string) : Prop :=
  (truthy (ch_when ch) = true /\ s = ch_when ch) \/ (truthy (ch_when ch) = false /\ s = ch_not_when ch).
Definition right_reason (r : repertoire) (label : cps) (i : nat) (reason : option (list (option string))) : Prop :=
  match reason with
  | None => forall ch, entry r ch -> ~ occurs_at label i (ch_cp ch)
  | Some l => l <> [] /\ forall s, In s l <-> exists ch, entry r ch /\ occurs_at label i (ch_cp ch) /\ reported_rule ch s
  end.

(** Longest-match cutting: at each position the longest applicable entry is
    taken; when none applies one code point is reported and skipped. *)
Inductive longest_match (rm : rule_oracle) (r : repertoire) (label : cps)
  : nat -> list char -> list (N * option (list (option string))) -> Prop :=
| lm_end : longest_match rm r label (length label) [] []
| lm_take : forall i ch l inv, applies rm r label i ch ->
    (forall ch', applies rm r label i ch' -> (length (ch_cp ch') <= length (ch_cp ch))%nat) ->
    longest_match rm r label (i + length (ch_cp ch))%nat l inv -> longest_match rm r label i (ch :: l) inv
| lm_skip : forall i x reason l inv, nth_error label i = Some x ->
    (forall ch, ~ applies rm r label i ch) -> right_reason r label i reason ->
    longest_match rm r label (S i) l inv -> longest_match rm r label i l ((x, reason) :: inv).

Definition spelled (l : list char) : cps := flat_map ch_cp l.

(** A variant mapping of an entry to itself that is usable at position [i]. *)
Definition self_mapping (rm : rule_oracle) (label : cps) (i : nat) (ch : char) (v : variant) : Prop :=
  In v (get_variants ch) /\ v_cp v = ch_cp ch /\ context_holds rm (v_when v) (v_not_when v) (v_cp v) label i.
Definition self_type (rm : rule_oracle) (r : repertoire) (label : cps) (t : option string) : Prop :=
  exists i ch v, applies rm r label i ch /\ self_mapping rm label i ch v /\ v_type v = t.
Definition all_self_mapped (rm : rule_oracle) (r : repertoire) (label : cps) : Prop :=
  forall i ch, applies rm r label i ch -> exists v, self_mapping rm label i ch v.

(** Action number [i], namely [a], is the first that triggers. *)
Definition decided_by (rm : rule_oracle) (acts : list action) (label : cps) (ds : dispset) (only : bool)
  (a : action) (i : nat) : Prop :=
  nth_error (acts ++ default_actions) i = Some a /\ triggers rm a label ds only /\
  forall j b, (j < i)%nat -> nth_error (acts ++ default_actions) j = Some b -> ~ triggers rm b label ds only.

(** ** Index labels *)

(** What an entry [ch] at position [i] may be replaced by: itself or the
    target of a variant whose rule holds in the label after the replacement. *)
Definition replaced (label : cps) (i : nat) (old new : cps) : cps :=
  firstn i label ++ new ++ skipn (i + length old) label.
Definition choice (rm : rule_oracle) (label : cps) (i : nat) (ch : char) (c : cps) : Prop :=
  c = ch_cp ch \/
  exists v, In v (get_variants ch) /\ v_cp v = c /\
    context_holds rm (v_when v) (v_not_when v) (v_cp v) (replaced label i (ch_cp ch) (v_cp v)) i.
Definition smallest (P : cps -> Prop) (m : cps) : Prop := P m /\ forall c, P c -> cps_leb m c = true.
Inductive minima (rm : rule_oracle) (label : cps) : nat -> list char -> cps -> Prop :=
| mn_nil : forall i, minima rm label i [] []
| mn_cons : forall i ch l c cs, smallest (choice rm label i ch) c ->
    minima rm label (i + length (ch_cp ch))%nat l cs -> minima rm label i (ch :: l) (c ++ cs).
Definition index_candidate (rm : rule_oracle) (r : repertoire) (label m : cps) : Prop :=
  exists p, cut rm r label 0 p /\ minima rm label 0 p m.

(** LGRs of single code points without context rules, symmetric and transitive. *)
Definition maps_to (r : repertoire) (x y : N) : Prop :=
  exists ch v, lookup r [x] = Some ch /\ In v (get_variants ch) /\ v_cp v = [y].
Record simple_lgr (r : repertoire) : Prop := {
  sl_single : forall ch, entry r ch -> exists x, ch_cp ch = [x];
  sl_no_context : forall ch, entry r ch -> ch_when ch = None /\ ch_not_when ch = None;
  sl_variants : forall ch v, entry r ch -> In v (get_variants ch) ->
    v_when v = None /\ v_not_when v = None /\ exists y, v_cp v = [y] /\ lookup r [y] <> None;
  sl_symmetric : forall x y, maps_to r x y -> maps_to r y x;
  sl_transitive : forall x y z, maps_to r x y -> maps_to r y z -> x = z \/ maps_to r x z
}.
Definition interchangeable (r : repertoire) (x y : N) : Prop := x = y \/ maps_to r x y.
Definition in_lgr (r : repertoire) (label : cps) : Prop := forall x, In x label -> lookup r [x] <> None.

(** ** Variant labels *)
Section Variants.
  Variables (rm : rule_oracle) (r : repertoire).
  (** [done] is what the beginning of the label has become, [rest] what is
      left to replace. *)
  Definition starts (ch : char) (rest : cps) : Prop := exists tail, rest = ch_cp ch ++ tail.
  Definition mapped (done rest : cps) (ch : char) : Prop :=
    entry r ch /\ get_variants ch <> [] /\ starts ch rest /\
    context_holds rm (ch_when ch) (ch_not_when ch) (ch_cp ch) (done ++ rest) (length done).
  (** The entries the generation looks at: those with variants, or failing
      that the longest one; and all those shorter than a sequence so chosen. *)
  Definition first_choice (done rest : cps) (ch : char) : Prop :=
    mapped done rest ch \/
    ((forall c, ~ mapped done rest c) /\ entry r ch /\ starts ch rest /\
     forall c, entry r c -> starts c rest -> (length (ch_cp c) <= length (ch_cp ch))%nat).
  Definition considered (done rest : cps) (ch : char) : Prop :=
    first_choice done rest ch \/
    exists s, first_choice done rest s /\ (2 <= length (ch_cp s))%nat /\
      entry r ch /\ starts ch rest /\ (length (ch_cp ch) < length (ch_cp s))%nat.

  Definition usable (done tail : cps) (ch : char) (v : variant) : Prop :=
    In v (get_variants ch) /\
    context_holds rm (v_when v) (v_not_when v) (v_cp v) (done ++ v_cp v ++ tail) (length done).

  (** [replacement allowed done rest l]: [rest] is cut into entries satisfying
      [allowed]; [l] gives for each one what replaces it. *)
  Inductive replacement (allowed : cps -> cps -> char -> Prop) : cps -> cps -> list (char * piece) -> Prop :=
  | rp_end : forall done, replacement allowed done [] []
  | rp_keep : forall done ch tail l, allowed done (ch_cp ch ++ tail) ch ->
      (forall v, usable done tail ch v -> v_cp v <> ch_cp ch) ->
      replacement allowed (done ++ ch_cp ch) tail l ->
      replacement allowed done (ch_cp ch ++ tail) ((ch, PChar ch) :: l)
  | rp_variant : forall done ch v tail l, allowed done (ch_cp ch ++ tail) ch -> usable done tail ch v ->
      replacement allowed (done ++ v_cp v) tail l ->
      replacement allowed done (ch_cp ch ++ tail) ((ch, PVar v) :: l).
  (** Same, an entry being also kept when it has a usable mapping to itself. *)
  Inductive free_replacement : cps -> cps -> list (char * piece) -> Prop :=
  | fr_end : forall done, free_replacement done [] []
  | fr_keep : forall done ch tail l, entry r ch -> free_replacement (done ++ ch_cp ch) tail l ->
      free_replacement done (ch_cp ch ++ tail) ((ch, PChar ch) :: l)
  | fr_variant : forall done ch v tail l, entry r ch -> usable done tail ch v ->
      free_replacement (done ++ v_cp v) tail l ->
      free_replacement done (ch_cp ch ++ tail) ((ch, PVar v) :: l).

  Definition result (l : list (char * piece)) : cps := flat_map (fun x => piece_cp (snd x)) l.
  Definition type_used (l : list (char * piece)) (t : option string) : Prop :=
    t <> None /\ exists ch v, In (ch, PVar v) l /\ v_type v = t.
  Definition all_replaced (l : list (char * piece)) : Prop := forall x, In x l -> exists v, snd x = PVar v.
  (** A label is left out only when it keeps everything and ends with an entry
      that has no variant. *)
  Definition produced (l : list (char * piece)) : Prop :=
    exists l0 x, l = l0 ++ [x] /\ ((exists ch v, In (ch, PVar v) l0) \/ get_variants (fst x) <> []).
End Variants.

(** [w] reports the replacement [l]. *)
Definition reports (w : vlabel) (l : list (char * piece)) : Prop :=
  vl_cp w = result l /\ vl_chars w = map snd l /\ (forall t, In t (vl_disp w) <-> type_used l t) /\
  (vl_only w = true <-> all_replaced l).
(** Every sequence has a variant and no context rule. *)
Definition sequences_mapped (r : repertoire) : Prop :=
  forall ch, entry r ch -> (2 <= length (ch_cp ch))%nat ->
    get_variants ch <> [] /\ ch_when ch = None /\ ch_not_when ch = None.

(** ** Scripts *)
Definition within (script : N -> string) (c : cps) (allowed : list string) : Prop :=
  forall x, In x c -> In (script x) allowed.
(** The scripts of a label, Common and Inherited apart, and what may be mixed
    with them: Japanese mixes Han, Latin, Katakana and Hiragana; Korean
    (Hangul) and Chinese (Han) admit Latin. *)
Definition label_script (script : N -> string) (label : cps) (s : string) : Prop :=
  (exists x, In x label /\ script x = s) /\ s <> "Common"%string /\ s <> "Inherited"%string.
Definition permitted (base : string -> Prop) (s : string) : Prop :=
  base s \/
  ((base "Katakana" \/ base "Hiragana") /\ (s = "Han" \/ s = "Latin" \/ s = "Katakana" \/ s = "Hiragana"))%string \/
  ((base "Hangul" \/ base "Han") /\ s = "Latin")%string.
Definition piece_within (script : N -> string) (P : string -> Prop) (p : piece) : Prop :=
  forall x, In x (piece_cp p) -> P (script x).

(** ** Listing *)
Section Listing.
  Variables (rm : rule_oracle) (r : repertoire) (acts : list action).
  (** The verdict [z] on the generated label [w]: it must be eligible by
      itself, reflexive mappings counting only for the original label, and
      then the first action triggered by the types of [w] decides. *)
  Definition judged (label : cps) (w : vlabel) (z : listed) : Prop :=
    ls_cp z = vl_cp w /\ ls_types z = vl_disp w /\
    exists e, test_label_eligible rm r acts (vl_cp w) (negb (cps_eqb (vl_cp w) label)) = Ok e /\
      ls_invalid z = Some (el_invalid e) /\
      ((el_ok e = false /\ ls_disp z = Some "invalid"%string /\ ls_idx z = el_idx e) \/
       (el_ok e = true /\ exists a i, decided_by rm acts (vl_cp w) (vl_disp w) (vl_only w) a i /\
          ls_disp z = Some (a_disp a) /\ ls_idx z = Z.of_nat i)).
  Definition wanted (with_labels : list cps) (c : cps) : Prop := with_labels = [] \/ In c with_labels.
  (** [w] is listed first among the labels of [ws] with the same code points. *)
  Definition first_with (ws : list vlabel) (w : vlabel) : Prop :=
    exists l1 l2, ws = l1 ++ w :: l2 /\ forall w', In w' l1 -> vl_cp w' <> vl_cp w.
End Listing.
