(** Model of the use of language tags: lgr/utils.py (tag_to_language_script,
    script_iso15924_to_unicode), lgr/metadata.py (get_scripts), lgr/memoize.py and
    lgr/tools/idn_review/language_tag.py.  No proofs here.

    The libraries of language tags and of languages are arguments: [tags] is
    language_tags.tags.tag, [alpha_2] the two letter code of a language, None when
    looking it up raises LookupError or AttributeError. *)
From Verif Require Import Base UtilsModel MetaModel ReviewModel.
Open Scope string_scope.
Open Scope list_scope.

(** What is used of the objects of the library: the text of a language
    (str), its format, its Suppress-Script, the format of its script. *)
Record language : Type := mkLanguage { ln_str : cps; ln_format : cps; ln_suppress : option cps; ln_script : option cps }.
Record script_tag : Type := mkScript { sc_str : cps; sc_format : cps }.
(** [tg_unknown], [tg_minimal]: ERR_UNKNOWN, ERR_SUPPRESS_SCRIPT are among the errors. *)
Record tag : Type := mkTag {
  tg_language : option language; tg_script : option script_tag; tg_valid : bool; tg_unknown : bool; tg_minimal : bool }.

Definition empty (s : cps) : bool := match s with [] => true | _ => false end.
Fixpoint split_first (sep : N) (s : cps) : option (cps * cps) :=
  match s with
  | [] => None
  | c :: r => if N.eqb c sep then Some ([], r)
              else option_map (fun p : cps * cps => (c :: fst p, snd p)) (split_first sep r)
  end.
(** s.lower() == 'und' (no other letter has these as lower case). *)
Definition is_und (s : cps) : bool :=
  match s with
  | [a; b; c] => (N.eqb a 117 || N.eqb a 85) && (N.eqb b 110 || N.eqb b 78) && (N.eqb c 100 || N.eqb c 68)
  | _ => false
  end.

(** utils.py:146-172 script_iso15924_to_unicode. *)
Definition iso_to_unicode (s : cps) : list cps :=
  if cps_eqb s (txt "Aran") then [txt "Arab"]
  else if cps_eqb s (txt "Geok") then [txt "Geor"]
  else if memb cps_eqb s [txt "Hans"; txt "Hant"] then [txt "Hani"]
  else if cps_eqb s (txt "Hrkt") then [txt "Hira"; txt "Kana"]
  else if cps_eqb s (txt "Jpan") then [txt "Hani"; txt "Hira"; txt "Kana"]
  else if cps_eqb s (txt "Kore") then [txt "Hani"; txt "Hang"]
  else if memb cps_eqb s [txt "Latf"; txt "Latg"] then [txt "Latn"]
  else if memb cps_eqb s [txt "Syre"; txt "Syrj"; txt "Syrn"] then [txt "Syrc"]
  else [s].

Section Library.
  Variable tags : cps -> tag.
  Variable alpha_2 : cps -> option cps.

  (** utils.py:205-217. *)
  Definition two_letters (t : cps) : cps :=
    match split_first 45 t with
    | None => t
    | Some (lang, rest) => (match alpha_2 lang with Some l => l | None => lang end) ++ 45 :: rest
    end.
  (** utils.py:204-232 tag_to_language_script; the script may be None. *)
  Definition tag_to_language_script (t : cps) (use_suppress : bool) : cps * option cps :=
    let g := tags (two_letters t) in
    let script := match tg_script g with Some s => sc_str s | None => [] end in
    let script := match tg_language g with
                  | Some l => if use_suppress && empty script then ln_suppress l else Some script
                  | None => Some script
                  end in
    let language := match tg_language g with Some l => ln_str l | None => [] end in
    let language := if is_und language then [] else language in
    let no_script := match script with Some s => empty s | None => true end in
    (language, if cps_eqb language (txt "zh") && no_script then Some (txt "Hani") else script).

  (** metadata.py:180-193 get_scripts, for the languages. *)
  Definition scripts_of (allow_invalid : bool) (l : cps) : list cps :=
    let g := tags l in
    if allow_invalid || tg_valid g then
      let iso := match tg_script g with
                 | Some s => Some (sc_format s)
                 | None => match tg_language g with Some x => ln_suppress x | None => None end
                 end in
      match iso with Some s => if empty s then [] else iso_to_unicode s | None => [] end
    else [].
  Definition get_scripts (languages : list cps) (allow_invalid : bool) : list cps :=
    flat_map (scripts_of allow_invalid) languages.

  (** memoize.py:22-37: the cache of an object; a key is the name of the function
      (here always the same), the text of the attribute and the text of the
      arguments.  [repr] is str() of a list of languages; the arguments are given
      by position, by name or not at all, in which case allow_invalid is False. *)
  Variable repr : list cps -> cps.
  Inductive call : Type := ByPosition (b : bool) | ByName (b : bool) | ByDefault.
  Definition call_value (c : call) : bool := match c with ByPosition b | ByName b => b | ByDefault => false end.
  (** str(args[1:]) + str(kwargs.items()). *)
  Definition call_text (c : call) : cps :=
    match c with
    | ByPosition true => txt "(True,)dict_items([])"
    | ByPosition false => txt "(False,)dict_items([])"
    | ByName true => txt "()dict_items([('allow_invalid', True)])"
    | ByName false => txt "()dict_items([('allow_invalid', False)])"
    | ByDefault => txt "()dict_items([])"
    end.
  Definition key_eqb (a b : cps * cps) : bool := cps_eqb (fst a) (fst b) && cps_eqb (snd a) (snd b).
  Definition cache : Type := dict (cps * cps) (list cps).
  Definition memo_get_scripts (languages : list cps) (c : call) (k : cache) : cache * list cps :=
    let key := (repr languages, call_text c) in
    match dget key_eqb key k with
    | Some s => (k, s)
    | None => let s := get_scripts languages (call_value c) in (dset key_eqb key s k, s)
    end.
  (** A history of an object: changes of its languages, by any means, and calls.
      The results of the calls, in order. *)
  Inductive md_event : Type := SetLanguages (l : list cps) | Call (c : call).
  Fixpoint memo_run (languages : list cps) (k : cache) (h : list md_event) : list (list cps) :=
    match h with
    | [] => []
    | SetLanguages l :: h' => memo_run l k h'
    | Call c :: h' => let '(k', s) := memo_get_scripts languages c k in s :: memo_run languages k' h'
    end.

  (** language_tag.py:24-48 compare_with_tag. *)
  Definition in_comment : string := "Language tag may be included in the comment".
  Definition mismatched : string := "The language tag in IDN Table and Reference LGR are mismatched".
  Definition compare_with_tag (idn : option cps) (ref : cps) : review * string :=
    match idn with
    | None => (RManual, in_comment)
    | Some t =>
        let '(idn_language, idn_script) := tag_to_language_script t false in
        let '(ref_language, ref_script) := tag_to_language_script ref false in
        let ref_text := match ref_script with Some s => s | None => [] end in
        if cps_eqb idn_language ref_language && cps_eqb (match idn_script with Some s => s | None => [] end) ref_text
        then (RMatch, "Exact match")
        else
          let g := tags t in
          if tg_unknown g then (RManual, in_comment)
          else if negb (empty idn_language) && cps_eqb idn_language ref_language then
            if tg_minimal g then (RMatch, "Consider minimizing the tag as per the RFC5646 and IANA subtag registry")
            else (RMatch, "Language match")
          else
            match tg_language g with
            | Some l => match ln_script l with
                        | Some s => if negb (empty ref_text) && cps_eqb s ref_text
                                    then (RMatch, "The language tag in IDN Table relevant to the script tag in Reference LGR")
                                    else (RReview, mismatched)
                        | None => (RReview, mismatched)
                        end
            | None => (RReview, mismatched)
            end
    end.
  (** language_tag.py:50-62 to_dict. *)
  Definition tag_leb (a b : cps * (review * string)) : bool := cps_leb (fst a) (fst b).
  Definition tag_report (idn : option cps) (refs : list cps) : cps * list (cps * (review * string)) :=
    (match idn with Some t => if empty t then txt "-" else t | None => txt "-" end,
     isort tag_leb (map (fun r => (r, compare_with_tag idn r)) refs)).
  (** language_tag.py:65-73 generate_language_tag_report. *)
  Definition language_tag_report (idn refs : list cps) : list (cps * list (cps * (review * string))) :=
    match idn with
    | [] => [tag_report None refs]
    | _ => map (fun t => tag_report (Some t) refs) (isort cps_leb idn)
    end.
End Library.
