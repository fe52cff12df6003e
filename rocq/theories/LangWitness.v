(** Examples for the use of language tags, with a small registry. *)
From Verif Require Import Base BaseFacts UtilsModel MetaModel ReviewModel LangModel LangSpec LangProofs.
Open Scope string_scope.
Open Scope list_scope.

Definition lang (s : string) (suppress : option string) : option language :=
  Some (mkLanguage (txt s) (txt s) (option_map txt suppress) (option_map txt suppress)).
Definition scr (s : string) : option script_tag := Some (mkScript (txt s) (txt s)).
Definition registry : dict cps tag :=
  [(txt "en", mkTag (lang "en" (Some "Latn")) None true false false);
   (txt "en-Latn", mkTag (lang "en" (Some "Latn")) (scr "Latn") false false true);
   (txt "fr", mkTag (lang "fr" (Some "Latn")) None true false false);
   (txt "ja", mkTag (lang "ja" (Some "Jpan")) None true false false);
   (txt "ka", mkTag (lang "ka" (Some "Geor")) None true false false);
   (txt "zh", mkTag (lang "zh" None) None true false false);
   (txt "zh-Hani", mkTag (lang "zh" None) (scr "Hani") true false false);
   (txt "und-Latn", mkTag (lang "und" None) (scr "Latn") true false false);
   (txt "und-Cyrl", mkTag (lang "und" None) (scr "Cyrl") true false false);
   (txt "und-Kore", mkTag (lang "und" None) (scr "Kore") true false false);
   (txt "und-Syrj", mkTag (lang "und" None) (scr "Syrj") false false false);
   (txt "x-one", mkTag None None true false false);
   (txt "x-two", mkTag None None true false false)].
Definition unknown_tag : tag := mkTag None None false true false.
Definition lib (t : cps) : tag := match dget cps_eqb t registry with Some g => g | None => unknown_tag end.
Definition two (l : cps) : option cps :=
  dget cps_eqb l [(txt "eng", txt "en"); (txt "en", txt "en"); (txt "zho", txt "zh"); (txt "zh", txt "zh")].
Definition cmp (a b : string) : review * string := compare_with_tag lib two (Some (txt a)) (txt b).

Lemma w_scripts : get_scripts lib [txt "ja"; txt "und-Syrj"; txt "x-one"; txt "en"] true = map txt ["Hani"; "Hira"; "Kana"; "Syrc"; "Latn"] /\
  get_scripts lib [txt "ja"; txt "und-Syrj"; txt "x-one"; txt "en"] false = map txt ["Hani"; "Hira"; "Kana"; "Latn"].
Proof. split; vm_compute; reflexivity. Qed.
Definition w_history : list md_event :=
  [Call ByDefault; Call (ByName true); SetLanguages [txt "en"; txt "und-Syrj"]; Call ByDefault; Call (ByPosition true);
   SetLanguages [txt "ja"]; Call (ByPosition true); Call (ByName false)].
Lemma w_history_run : memo_run lib py_repr [txt "ja"] [] w_history =
  map (map txt) [["Hani"; "Hira"; "Kana"]; ["Hani"; "Hira"; "Kana"]; ["Latn"]; ["Latn"; "Syrc"]; ["Hani"; "Hira"; "Kana"]; ["Hani"; "Hira"; "Kana"]].
Proof. vm_compute. reflexivity. Qed.
Definition plainb (x : cps) : bool := forallb (fun c => negb (N.eqb c 39) && negb (N.eqb c 92) && N.leb 32 c && N.ltb c 127) x.
Lemma plainb_sound : forall x, plainb x = true -> plain_text x.
Proof.
  intros x H c Hc. unfold plainb in H. rewrite forallb_forall in H. specialize (H c Hc). rewrite !andb_true_iff, !negb_true_iff, !N.eqb_neq, N.leb_le, N.ltb_lt in H. tauto.
Qed.
Lemma plain_list : forall l, forallb plainb l = true -> Forall plain_text l.
Proof. intros l H. rewrite forallb_forall in H. apply Forall_forall. intros x Hx. apply plainb_sound, H, Hx. Qed.
Lemma w_plain : Forall plain_text [txt "ja"] /\ forall l, In l (lists_of w_history) -> Forall plain_text l.
Proof.
  split; [apply plain_list; reflexivity|]. intros l H. cbn [lists_of w_history flat_map app In] in H.
  repeat (destruct H as [<-|H]; [apply plain_list; reflexivity|]). destruct H.
Qed.
Lemma w_verdicts : map (fun p : string * string => cmp (fst p) (snd p))
    [("en", "en"); ("zh", "zh-Hani"); ("zho-Hani", "zh"); ("eng", "en"); ("en-Latn", "en"); ("en", "en-Latn"); ("en", "und-Latn"); ("en", "fr")] =
  [(RMatch, "Exact match"); (RMatch, "Exact match"); (RMatch, "Exact match"); (RManual, in_comment);
   (RMatch, "Consider minimizing the tag as per the RFC5646 and IANA subtag registry"); (RMatch, "Language match");
   (RMatch, "The language tag in IDN Table relevant to the script tag in Reference LGR"); (RReview, mismatched)].
Proof. vm_compute. reflexivity. Qed.
Lemma w_report : map (fun x => (fst x, map fst (snd x))) (language_tag_report lib two [txt "fr"; txt "en"] [txt "und-Latn"; txt "en"]) =
  [(txt "en", [txt "en"; txt "und-Latn"]); (txt "fr", [txt "en"; txt "und-Latn"])].
Proof. vm_compute. reflexivity. Qed.
Lemma two_fixed : normalised two (txt "en") (txt "en") /\ normalised two (txt "eng-Latn") (txt "en-Latn").
Proof. split; apply normalised_two; vm_compute; reflexivity. Qed.

(** Two private use tags are the same. *)
Lemma private_same : exists tags f a b, a <> b /\ tg_valid (tags a) = true /\ tg_valid (tags b) = true /\
  normalised f a a /\ normalised f b b /\ compare_with_tag tags f (Some a) b = (RMatch, "Exact match").
Proof.
  exists lib, two, (txt "x-one"), (txt "x-two"). split; [discriminate|]. split; [reflexivity|]. split; [reflexivity|].
  split; [apply normalised_two; vm_compute; reflexivity|]. split; [apply normalised_two; vm_compute; reflexivity|]. vm_compute. reflexivity.
Qed.
(** A language and the script it is written in match one way only. *)
Lemma one_way : exists tags f a b, fst (compare_with_tag tags f (Some a) b) = RMatch /\ fst (compare_with_tag tags f (Some b) a) = RReview.
Proof. exists lib, two, (txt "en"), (txt "und-Latn"). split; vm_compute; reflexivity. Qed.
(** A three letter code is replaced before a dash only. *)
Lemma dash_needed : exists tags f a a' rest b, f a = Some a' /\ fst (compare_with_tag tags f (Some (a ++ 45%N :: rest)) b) = RMatch /\
  fst (compare_with_tag tags f (Some a') b) = RMatch /\ fst (compare_with_tag tags f (Some a) b) = RManual.
Proof. exists lib, two, (txt "eng"), (txt "en"), (txt "Latn"), (txt "en-Latn"). repeat split; vm_compute; reflexivity. Qed.
