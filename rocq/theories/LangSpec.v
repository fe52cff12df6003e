(** What is expected of the use of language tags (C69, C70). *)
From Coq Require Import Permutation Sorted.
From Verif Require Import Base UtilsModel MetaModel ReviewModel LangModel.
Open Scope string_scope.
Open Scope list_scope.

(** ** Scripts *)
(** The Unicode scripts of the ISO 15924 codes that are not Unicode scripts. *)
Definition wider : list (string * string) :=
  [("Jpan", "Hani"); ("Jpan", "Hira"); ("Jpan", "Kana"); ("Kore", "Hani"); ("Kore", "Hang"); ("Hrkt", "Hira"); ("Hrkt", "Kana");
   ("Hans", "Hani"); ("Hant", "Hani"); ("Latf", "Latn"); ("Latg", "Latn"); ("Syre", "Syrc"); ("Syrj", "Syrc"); ("Syrn", "Syrc");
   ("Aran", "Arab"); ("Geok", "Geor")].
Definition written_in (iso u : cps) : Prop :=
  (exists a b, In (a, b) wider /\ iso = txt a /\ u = txt b) \/
  (u = iso /\ forall a b, In (a, b) wider -> iso <> txt a).
(** The script a tag tells: its own, or else the one its language is always written in. *)
Definition tells_script (g : tag) (s : cps) : Prop :=
  s <> [] /\
  ((exists x, tg_script g = Some x /\ s = sc_format x) \/
   (tg_script g = None /\ exists l, tg_language g = Some l /\ ln_suppress l = Some s)).

(** ** The cache *)
(** The answers computed afresh at each call, with the languages of that moment. *)
Fixpoint fresh (tags : cps -> tag) (now : list cps) (h : list md_event) : list (list cps) :=
  match h with
  | [] => []
  | SetLanguages l :: h' => fresh tags l h'
  | Call c :: h' => get_scripts tags now (call_value c) :: fresh tags now h'
  end.
Definition lists_of (h : list md_event) : list (list cps) :=
  flat_map (fun e => match e with SetLanguages l => [l] | Call _ => [] end) h.
(** Python's text of a list of texts without quotes, backslashes or unprintable characters. *)
Definition py_repr (l : list cps) : cps := 91 :: join [44; 32] (map (fun x => 39 :: x ++ [39]) l) ++ [93].
Definition plain_text (x : cps) : Prop := forall c, In c x -> c <> 39 /\ c <> 92 /\ (32 <= c < 127)%N.

(** ** Reading a tag *)
(** The tag given to the library: what precedes the first dash is replaced by its
    two letter code, if there is one. *)
Definition normalised (alpha_2 : cps -> option cps) (t t' : cps) : Prop :=
  (~ In 45%N t /\ t' = t) \/
  exists a b, t = a ++ 45 :: b /\ ~ In 45%N a /\
    ((exists a', alpha_2 a = Some a' /\ t' = a' ++ 45 :: b) \/ (alpha_2 a = None /\ t' = t)).
(** "und" in any case. *)
Definition undetermined (s : cps) : Prop :=
  exists a b c, s = [a; b; c] /\ In a [117; 85] /\ In b [110; 78] /\ In c [100; 68].
Definition language_of (g : tag) (s : cps) : Prop :=
  match tg_language g with
  | None => s = []
  | Some l => (undetermined (ln_str l) /\ s = []) \/ (~ undetermined (ln_str l) /\ s = ln_str l)
  end.
(** Chinese is in Han when nothing says otherwise. *)
Definition script_of (g : tag) (s : cps) : Prop :=
  let said := match tg_script g with Some x => sc_str x | None => [] end in
  (said <> [] /\ s = said) \/
  (said = [] /\ language_of g (txt "zh") /\ s = txt "Hani") \/
  (said = [] /\ ~ language_of g (txt "zh") /\ s = []).
Definition names (tags : cps -> tag) (alpha_2 : cps -> option cps) (t language script : cps) : Prop :=
  exists t', normalised alpha_2 t t' /\ language_of (tags t') language /\ script_of (tags t') script.

(** ** Comparing a tag with one of the reference *)
Definition same_names tags alpha_2 (a b : cps) : Prop :=
  exists l s, names tags alpha_2 a l s /\ names tags alpha_2 b l s.
Definition same_language tags alpha_2 (a b : cps) : Prop :=
  exists l s s', l <> [] /\ names tags alpha_2 a l s /\ names tags alpha_2 b l s'.
(** The language of a tag has the script of the other as its script. *)
Definition relevant_to tags alpha_2 (a b : cps) : Prop :=
  exists l x s, s <> [] /\ names tags alpha_2 b l s /\ tg_language (tags a) = Some x /\ ln_script x = Some s.
(** The verdict and its remark. *)
Inductive compared_to (tags : cps -> tag) (f : cps -> option cps) (t ref : cps) : review * string -> Prop :=
| c_exact : same_names tags f t ref -> compared_to tags f t ref (RMatch, "Exact match")
| c_unknown : ~ same_names tags f t ref -> tg_unknown (tags t) = true -> compared_to tags f t ref (RManual, in_comment)
| c_minimal : ~ same_names tags f t ref -> tg_unknown (tags t) = false -> same_language tags f t ref -> tg_minimal (tags t) = true ->
    compared_to tags f t ref (RMatch, "Consider minimizing the tag as per the RFC5646 and IANA subtag registry")
| c_language : ~ same_names tags f t ref -> tg_unknown (tags t) = false -> same_language tags f t ref -> tg_minimal (tags t) = false ->
    compared_to tags f t ref (RMatch, "Language match")
| c_relevant : ~ same_names tags f t ref -> tg_unknown (tags t) = false -> ~ same_language tags f t ref -> relevant_to tags f t ref ->
    compared_to tags f t ref (RMatch, "The language tag in IDN Table relevant to the script tag in Reference LGR")
| c_other : ~ same_names tags f t ref -> tg_unknown (tags t) = false -> ~ same_language tags f t ref -> ~ relevant_to tags f t ref ->
    compared_to tags f t ref (RReview, mismatched).
(** Lines by the tag of the reference. *)
Definition line_le (a b : cps * (review * string)) : Prop := cps_leb (fst a) (fst b) = true.
