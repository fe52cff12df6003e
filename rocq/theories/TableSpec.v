(** What the text tables say: written independently of the parsers. *)
From Verif Require Import Base CharModel RepSpec RefModel LgrModel UtilsModel AnnotateModel AnnotateSpec.

(** The value of a hexadecimal digit, and of a number written with them. *)
Definition hex_digit (c v : N) : Prop :=
  (48 <= c <= 57 /\ c = 48 + v) \/ (65 <= c <= 70 /\ c = 55 + v) \/ (97 <= c <= 102 /\ c = 87 + v).
Inductive hex_value : cps -> N -> Prop :=
| hv_none : hex_value [] 0
| hv_more : forall d n c v, hex_value d n -> hex_digit c v -> hex_value (d ++ [c]) (16 * n + v).

(** [s] starts with four to six digits of value [n], and as many as possible. *)
Definition number (s : cps) (n : N) (rest : cps) : Prop :=
  exists d, s = d ++ rest /\ (4 <= length d <= 6)%nat /\ hex_value d n /\
            (length d = 6%nat \/ forall c v t, rest = c :: t -> ~ hex_digit c v).
(** [s] starts with the notation U+XXXX of [n]. *)
Definition token (s : cps) (n : N) (rest : cps) : Prop :=
  exists s', s = 85 :: 43 :: s' /\ number s' n rest.

(** The code points that a text mentions in this notation, left to right. *)
Inductive mentions : cps -> cps -> Prop :=
| men_end : mentions [] []
| men_skip : forall a s c, (forall n rest, ~ token (a :: s) n rest) -> mentions s c -> mentions (a :: s) c
| men_token : forall s n rest c, token s n rest -> mentions rest c -> mentions s (n :: c).

(** [t] is the line without surrounding blanks; it is not empty nor a comment. *)
Definition states (line t : cps) : Prop :=
  (exists pre post, line = pre ++ t ++ post /\ blank pre /\ blank post) /\ trimmed t /\
  t <> [] /\ (forall u, t <> hash_mark :: u).

(** [u] is [t] up to its first '#'. *)
Definition uncommented (t u : cps) : Prop :=
  ~ In hash_mark u /\ exists tail, t = u ++ tail /\ (tail = [] \/ exists x, tail = hash_mark :: x).

(** [l] are the parts of [s] between the separators. *)
Definition parts (sep : N) (s : cps) (l : list cps) : Prop :=
  l <> [] /\ s = join [sep] l /\ Forall (fun p => ~ In sep p) l.

(** RFC 4290: code points separated by '-'; each part starts with one (what
    follows it in the part does not count). *)
Definition dashed (s c : cps) : Prop :=
  exists l, parts 45 s l /\ Forall2 (fun p n => exists rest, token p n rest) l c.
(** A row: the character, then after '|' its variants separated by ':'. *)
Definition row_4290 (t char : cps) (vars : list cps) : Prop :=
  (exists n rest, token t n rest) /\
  exists u more, uncommented t u /\ parts 124 u (char :: more) /\
    match more with [] => vars = [] | v :: _ => parts 58 v vars end.

(** A row of the file [lines]. *)
Definition listed_4290 (lines : list cps) (char : cps) (vars : list cps) : Prop :=
  exists line t, In line lines /\ states line t /\ row_4290 t char vars.

(** A row is read in the right place when its character can be read, or none
    of its variants can. *)
Definition readable_row (char : cps) (vars : list cps) : Prop :=
  (exists c, dashed char c) \/ forall var v, In var vars -> ~ dashed var v.

(** RFC 3743: code points separated by one space, with or without U+, then
    optionally the digits of the references in parentheses. *)
Definition unit_of (s : cps) (n : N) : Prop :=
  (exists d, (s = d \/ s = 85 :: 43 :: d) /\ (4 <= length d <= 6)%nat /\ hex_value d n).
Definition digit (d : N) : Prop := 48 <= d <= 57.
Definition citation (s : cps) (ds : list N) : Prop :=
  (s = [] /\ ds = []) \/
  (ds <> [] /\ Forall digit ds /\ s = 40 :: join [44] (map (fun d => [d]) ds) ++ [41]).
Definition written (s c : cps) (ds : list N) : Prop :=
  exists units cited, units <> [] /\ Forall2 unit_of units c /\ citation cited ds /\ s = join [32] units ++ cited.
(** Several of them, separated by commas and possibly spaces. *)
Inductive enumerated : cps -> list (cps * list N) -> Prop :=
| en_one : forall s c ds, written s c ds -> enumerated s [(c, ds)]
| en_more : forall s c ds k s' l, written s c ds -> enumerated s' l ->
            enumerated (s ++ 44 :: repeat 32 k ++ s') ((c, ds) :: l).
(** A column that may be missing or blank. *)
Definition column (col : option cps) (l : list (cps * list N)) : Prop :=
  match col with
  | None => l = []
  | Some s => (blank s /\ l = []) \/
              exists pre post s', s = pre ++ s' ++ post /\ blank pre /\ blank post /\ enumerated s' l
  end.
(** A row: character; preferred variants; other variants. *)
Definition row_3743 (t c : cps) (ds : list N) (preferred others : list (cps * list N)) : Prop :=
  exists u post char more, uncommented t (u ++ post) /\ blank post /\ parts 59 u (char :: more) /\ trimmed u /\
    written char c ds /\ column (nth_error more 0) preferred /\ column (nth_error more 1) others.

(** What a table asks for, in order. *)
Inductive event : Type :=
| ECp (c : cps) (refs : list string)
| EVar (c v : cps) (type_ : option string) (refs : list string)
| ERef (id value : string) (comment : option string).

(** [x] is the first element of [l] with property [P]; [pre] is before it. *)
Definition first_with {A} (P : A -> Prop) (l pre : list A) (x : A) : Prop :=
  exists post, l = pre ++ x :: post /\ P x /\ forall y, In y pre -> ~ P y.

Definition about_cp (c : cps) (e : event) : Prop := exists refs, e = ECp c refs.
Definition about_var (c v : cps) (e : event) : Prop := exists ty refs, e = EVar c v ty refs.
Definition about_ref (id : string) (e : event) : Prop := exists value comment, e = ERef id value comment.

(** The citations that stay: those of references declared before. *)
Definition declared (pre : list event) : list string :=
  flat_map (fun e => match e with ERef id _ _ => [id] | _ => [] end) pre.
Definition kept (pre : list event) (refs : list string) : list string :=
  filter (fun r => memb String.eqb r (declared pre)) refs.

(** What is taken into account of what a table asks for.  Without force, an
    entry is refused when it cites a reference that is not declared before, or
    one twice; and so are the variants of an entry that is not there. *)
Definition sound (pre : list event) (refs : list string) : Prop := NoDup refs /\ incl refs (declared pre).
Definition heeds (force : bool) (pre : list event) (e : event) : Prop :=
  match e with
  | ECp c refs => sound pre refs \/ force = true
  | EVar c v ty refs => (sound pre refs \/ force = true) /\ exists x, In x pre /\ about_cp c x
  | ERef _ _ _ => True
  end.
(** [evs]: asked for, in order; [l]: of these, the ones taken into account. *)
Inductive heeded (force : bool) : list event -> list event -> Prop :=
| he_none : heeded force [] []
| he_taken : forall evs l e, heeded force evs l -> heeds force l e -> heeded force (evs ++ [e]) (l ++ [e])
| he_refused : forall evs l e, heeded force evs l -> ~ heeds force l e -> heeded force (evs ++ [e]) l.

(** The LGR that holds exactly what the first mention of each item asks for. *)
Record holds (evs : list event) (g : lgr) : Prop := mkHolds {
  h_cp : forall c, lookup (lg_rep g) c <> None <-> exists e, In e evs /\ about_cp c e;
  h_entry : forall c ch, lookup (lg_rep g) c = Some ch ->
    exists pre refs, first_with (about_cp c) evs pre (ECp c refs) /\
      ch_refs ch = kept pre refs /\ is_range ch = false /\ ch_comment ch = None /\ ch_tags ch = [] /\
      ch_when ch = None /\ ch_not_when ch = None;
  h_var : forall c ch u, lookup (lg_rep g) c = Some ch -> In u (get_variants ch) <->
    exists pre ty refs, first_with (about_var c (v_cp u)) evs pre (EVar c (v_cp u) ty refs) /\
      u = mkVariant (v_cp u) ty None None None (kept pre refs);
  h_ref : forall id r, dget String.eqb id (rm_refs (lg_refs g)) = Some r <->
    exists pre, first_with (about_ref id) evs pre (ERef id (ref_value r) (ref_comment r)) }.

(** The lines of an RFC 3743 table, and what each of them asks for. *)
Definition reference_line (t : cps) (d : N) (value : cps) (comment : option cps) : Prop :=
  exists w1 w2 tail, t = txt "Reference" ++ w1 ++ d :: w2 ++ value ++ tail /\
    digit d /\ blank w1 /\ w1 <> [] /\ blank w2 /\ w2 <> [] /\
    value <> [] /\ ~ In hash_mark value /\ (forall c v, value = c :: v -> is_space c = false) /\
    match comment with
    | None => tail = []
    | Some cm => exists w3, tail = hash_mark :: w3 ++ cm /\ blank w3 /\ (forall c v, cm = c :: v -> is_space c = false)
    end.
Definition version_line (t : cps) (d : N) (date : cps) (comment : option cps) : Prop :=
  exists w1 w2 w3 tail, t = txt "Version" ++ w1 ++ d :: w2 ++ date ++ w3 ++ tail /\
    digit d /\ blank w1 /\ w1 <> [] /\ blank w2 /\ w2 <> [] /\ length date = 8%nat /\ Forall digit date /\ blank w3 /\
    match comment with
    | None => tail = []
    | Some cm => exists w4, tail = hash_mark :: w4 ++ cm /\ blank w4 /\ (forall c v, cm = c :: v -> is_space c = false)
    end.
Definition other_line (t : cps) : Prop :=
  (forall p rest n, t = p ++ rest -> ~ unit_of p n) /\
  (forall rest, t <> txt "Reference" ++ rest) /\ (forall rest, t <> txt "Version" ++ rest).

(** The name of a reference is its digit. *)
Definition named (d : N) : string := untxt [d].
Definition asked_variants (c : cps) (ty : option string) (l : list (cps * list N)) : list event :=
  map (fun x => EVar c (fst x) ty (map named (snd x))) l.
Inductive line_3743 (enc : cps -> string) (line : cps) : list event -> option (N * cps * option cps) -> Prop :=
| l_empty : (forall t, ~ states line t) -> line_3743 enc line [] None
| l_other : forall t, states line t -> other_line t -> line_3743 enc line [] None
| l_ref : forall t d value cm, states line t -> reference_line t d value cm ->
    line_3743 enc line [ERef (named d) (enc value) (option_map enc cm)] None
| l_version : forall t d date cm, states line t -> version_line t d date cm ->
    line_3743 enc line [] (Some (d, date, cm))
| l_row : forall t c ds pref others, states line t -> row_3743 t c ds pref others ->
    line_3743 enc line (ECp c (map named ds) ::
      asked_variants c (Some "activated"%string) pref ++ asked_variants c None others) None.
(** A file: what it asks for and the version lines, in order. *)
Inductive file_3743 (enc : cps -> string) : list cps -> list event -> list (N * cps * option cps) -> Prop :=
| f_end : file_3743 enc [] [] []
| f_line : forall line lines evs ver evs' vers, line_3743 enc line evs ver -> file_3743 enc lines evs' vers ->
    file_3743 enc (line :: lines) (evs ++ evs') (match ver with Some v => v :: vers | None => vers end).

(** What a line reveals of the format of the file. [u]: its text without
    comment. *)
Definition reads_as (line u : cps) : Prop :=
  exists v pre post, uncommented line v /\ v = pre ++ u ++ post /\ blank pre /\ blank post /\ trimmed u.
Definition has_token (u : cps) : Prop := exists n rest, token u n rest.
Definition has_unit (u : cps) : Prop := exists p rest n, u = p ++ rest /\ unit_of p n.
Definition points_3743 (line : cps) : Prop :=
  exists u, reads_as line u /\ ((has_token u /\ In 59 u) \/ (~ has_token u /\ has_unit u)).
Definition points_4290 (line : cps) : Prop :=
  exists u, reads_as line u /\ has_token u /\ ~ In 59 u /\ In 124 u.
Definition points_table (line : cps) : Prop :=
  exists u, reads_as line u /\ has_token u.

(** What any RFC 4290 table asks for, as it is read.  The variants of a row are
    for the character [last] of the latest row, possibly this one, whose
    character can be read; reading stops at a variant that comes before any. *)
Inductive asks_vars (last : option cps) : list cps -> list event -> bool -> Prop :=
| av_end : asks_vars last [] [] true
| av_unreadable : forall var vars evs done, (forall v, ~ dashed var v) -> asks_vars last vars evs done ->
    asks_vars last (var :: vars) evs done
| av_variant : forall c v var vars evs done, last = Some c -> dashed var v -> asks_vars last vars evs done ->
    asks_vars last (var :: vars) (EVar c v None [] :: evs) done
| av_nobody : forall v var vars, last = None -> dashed var v -> asks_vars last (var :: vars) [] false.
Inductive asks_4290 : option cps -> list cps -> list event -> bool -> Prop :=
| as_end : forall last, asks_4290 last [] [] true
| as_no_row : forall last line lines evs done, (forall t char vars, states line t -> ~ row_4290 t char vars) ->
    asks_4290 last lines evs done -> asks_4290 last (line :: lines) evs done
| as_row : forall last line lines t char vars c evs evs' done, states line t -> row_4290 t char vars -> dashed char c ->
    asks_vars (Some c) vars evs true -> asks_4290 (Some c) lines evs' done ->
    asks_4290 last (line :: lines) (ECp c [] :: evs ++ evs') done
| as_nameless : forall last line lines t char vars evs evs' done, states line t -> row_4290 t char vars ->
    (forall c, ~ dashed char c) -> asks_vars last vars evs true -> asks_4290 last lines evs' done ->
    asks_4290 last (line :: lines) (evs ++ evs') done
| as_stop : forall last line lines t char vars evs, states line t -> row_4290 t char vars ->
    (forall c, ~ dashed char c) -> asks_vars last vars evs false ->
    asks_4290 last (line :: lines) evs false.

(** [g'] has everything that [g] has, as it is there. *)
Record extends (g g' : lgr) : Prop := mkExtends {
  x_entry : forall c ch, lookup (lg_rep g) c = Some ch -> exists ch', lookup (lg_rep g') c = Some ch' /\
    ch_refs ch' = ch_refs ch /\ forall u, In u (get_variants ch) -> In u (get_variants ch');
  x_ref : forall id r, dget String.eqb id (rm_refs (lg_refs g)) = Some r -> dget String.eqb id (rm_refs (lg_refs g')) = Some r }.
