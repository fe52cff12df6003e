(** C69: the language tags in the review of an IDN table; C70: the scripts of the
    metadata and their cache. *)
From Coq Require Import Permutation Sorted.
From Verif Require Import Base UtilsModel MetaModel ReviewModel LangModel LangSpec LangProofs LangWitness.
Open Scope string_scope.
Open Scope list_scope.

(** C69: the language and the script read from a tag. *)
Theorem C69_names : forall tags f t l s, tag_to_language_script tags f t false = (l, Some s) <-> names tags f t l s.
Proof. exact tag_names. Qed.
Print Assumptions C69_names.
Example C69_names_ex : tag_to_language_script lib two (txt "zho-Hani") false = (txt "zh", Some (txt "Hani")) /\
  tag_to_language_script lib two (txt "zh") false = (txt "zh", Some (txt "Hani")) /\
  tag_to_language_script lib two (txt "und-Latn") false = ([], Some (txt "Latn")).
Proof. repeat split; vm_compute; reflexivity. Qed.

(** C69: a language and a script are always read. *)
Theorem C69_always : forall tags f t, exists l s, tag_to_language_script tags f t false = (l, Some s).
Proof. exact tag_script. Qed.
Print Assumptions C69_always.
Example C69_always_ex : tag_to_language_script lib two (txt "nonsense") false = ([], Some []).
Proof. vm_compute. reflexivity. Qed.

(** C69: the verdict on a tag of the table and a tag of the reference, with its remark. *)
Theorem C69_verdict : forall tags f t ref x, compare_with_tag tags f (Some t) ref = x <-> compared_to tags f t ref x.
Proof. exact compare_iff. Qed.
Print Assumptions C69_verdict.
Example C69_verdict_ex : map (fun p : string * string => fst (cmp (fst p) (snd p)))
    [("en", "en"); ("zh", "zh-Hani"); ("zho-Hani", "zh"); ("eng", "en"); ("en-Latn", "en"); ("en", "en-Latn"); ("en", "und-Latn"); ("en", "fr")] =
  [RMatch; RMatch; RMatch; RManual; RMatch; RMatch; RMatch; RReview].
Proof. vm_compute. reflexivity. Qed.

(** C69: tags that are the same once normalised are an exact match; so a tag and itself. *)
Theorem C69_self : forall tags f t t', normalised f t t' -> forall ref, normalised f ref t' ->
  compare_with_tag tags f (Some t) ref = (RMatch, "Exact match").
Proof. exact compare_self. Qed.
Print Assumptions C69_self.
Example C69_self_ex : normalised two (txt "en") (txt "en") /\ normalised two (txt "eng-Latn") (txt "en-Latn").
Proof. exact two_fixed. Qed.

(** C69: the report has a line for each tag of the table, in order, and in it each
    tag of the reference with its verdict, in order; without tag, one line "-". *)
Theorem C69_report : forall tags f idn refs,
  (idn = [] -> map fst (language_tag_report tags f idn refs) = [txt "-"]) /\
  (idn <> [] -> exists ts, Permutation idn ts /\ StronglySorted (fun a b => cps_leb a b = true) ts /\
     Forall2 (fun t x => fst x = (if empty t then txt "-" else t) /\
       Permutation (map (fun r => (r, compare_with_tag tags f (Some t) r)) refs) (snd x) /\ StronglySorted line_le (snd x))
       ts (language_tag_report tags f idn refs)).
Proof. exact report_lines. Qed.
Print Assumptions C69_report.
Example C69_report_ex : map (fun x => (fst x, map fst (snd x))) (language_tag_report lib two [txt "fr"; txt "en"] [txt "und-Latn"; txt "en"]) =
  [(txt "en", [txt "en"; txt "und-Latn"]); (txt "fr", [txt "en"; txt "und-Latn"])].
Proof. exact w_report. Qed.

(** C69: without tag, each tag of the reference is to be checked by hand. *)
Theorem C69_untagged : forall tags f refs x, In x (language_tag_report tags f [] refs) ->
  Permutation refs (map fst (snd x)) /\ forall r v, In (r, v) (snd x) -> v = (RManual, in_comment).
Proof. exact report_untagged. Qed.
Print Assumptions C69_untagged.
Example C69_untagged_ex : language_tag_report lib two [] [txt "fr"; txt "en"] = [(txt "-", [(txt "en", (RManual, in_comment)); (txt "fr", (RManual, in_comment))])].
Proof. vm_compute. reflexivity. Qed.

(** Different valid tags are called an exact match: two private use tags. *)
Theorem C69_exact_refuted : exists tags f a b, a <> b /\ tg_valid (tags a) = true /\ tg_valid (tags b) = true /\
  normalised f a a /\ normalised f b b /\ compare_with_tag tags f (Some a) b = (RMatch, "Exact match").
Proof. exact private_same. Qed.
Print Assumptions C69_exact_refuted.
(** Tags that match one way are to be reviewed the other way. *)
Theorem C69_symmetric_refuted : exists tags f a b,
  fst (compare_with_tag tags f (Some a) b) = RMatch /\ fst (compare_with_tag tags f (Some b) a) = RReview.
Proof. exact one_way. Qed.
Print Assumptions C69_symmetric_refuted.
(** A three letter code is not replaced by its two letter code when it stands alone. *)
Theorem C69_three_letters_refuted : exists tags f a a' rest b, f a = Some a' /\
  fst (compare_with_tag tags f (Some (a ++ 45%N :: rest)) b) = RMatch /\
  fst (compare_with_tag tags f (Some a') b) = RMatch /\ fst (compare_with_tag tags f (Some a) b) = RManual.
Proof. exact dash_needed. Qed.
Print Assumptions C69_three_letters_refuted.

(** C70: the scripts are the Unicode scripts of the scripts the languages tell. *)
Theorem C70_scripts : forall tags ls b u, In u (get_scripts tags ls b) <->
  exists l s, In l ls /\ (b = true \/ tg_valid (tags l) = true) /\ tells_script (tags l) s /\ written_in s u.
Proof. exact get_scripts_In. Qed.
Print Assumptions C70_scripts.
Example C70_scripts_ex : get_scripts lib [txt "ja"; txt "und-Syrj"; txt "x-one"; txt "en"] true = map txt ["Hani"; "Hira"; "Kana"; "Syrc"; "Latn"] /\
  get_scripts lib [txt "ja"; txt "und-Syrj"; txt "x-one"; txt "en"] false = map txt ["Hani"; "Hira"; "Kana"; "Latn"].
Proof. exact w_scripts. Qed.

(** C70: they come language by language. *)
Theorem C70_order : forall tags a c b, get_scripts tags (a ++ c) b = get_scripts tags a b ++ get_scripts tags c b.
Proof. exact get_scripts_app. Qed.
Print Assumptions C70_order.
Example C70_order_ex : get_scripts lib ([txt "en"] ++ [txt "ja"]) true = map txt ["Latn"; "Hani"; "Hira"; "Kana"].
Proof. vm_compute. reflexivity. Qed.

(** C70: invalid tags are left out, and nothing else, unless they are allowed. *)
Theorem C70_invalid : forall tags ls, get_scripts tags ls false = get_scripts tags (filter (fun l => tg_valid (tags l)) ls) true.
Proof. exact get_scripts_valid. Qed.
Print Assumptions C70_invalid.
Example C70_invalid_ex : filter (fun l => tg_valid (lib l)) [txt "und-Syrj"; txt "en"] = [txt "en"].
Proof. vm_compute. reflexivity. Qed.

(** C70: for every history of changes and calls, the cache changes no answer, as
    long as the lists of languages have different texts. *)
Theorem C70_cache : forall tags repr (ok : list cps -> Prop), (forall a b, ok a -> ok b -> repr a = repr b -> a = b) ->
  forall h now, ok now -> (forall l, In l (lists_of h) -> ok l) -> memo_run tags repr now [] h = fresh tags now h.
Proof. exact cache_transparent. Qed.
Print Assumptions C70_cache.
Example C70_cache_ex : memo_run lib py_repr [txt "ja"] [] w_history =
  map (map txt) [["Hani"; "Hira"; "Kana"]; ["Hani"; "Hira"; "Kana"]; ["Latn"]; ["Latn"; "Syrc"]; ["Hani"; "Hira"; "Kana"]; ["Hani"; "Hira"; "Kana"]].
Proof. exact w_history_run. Qed.

(** C70: which they have when no language has a quote, a backslash or an unprintable character. *)
Theorem C70_texts : forall a b, Forall plain_text a -> Forall plain_text b -> py_repr a = py_repr b -> a = b.
Proof. exact py_repr_inj. Qed.
Print Assumptions C70_texts.
Example C70_texts_ex : Forall plain_text [txt "ja"] /\ forall l, In l (lists_of w_history) -> Forall plain_text l.
Proof. exact w_plain. Qed.
