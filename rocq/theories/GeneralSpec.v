(** What is expected of the general rules and of the reports without reference (C68). *)
From Coq Require Import Permutation Sorted.
From Verif Require Import Base CharModel RepSpec LabelSpec LgrModel UtilsModel ReviewModel ReviewSpec LangModel GeneralModel.
Open Scope string_scope.
Open Scope list_scope.

(** ** The repertoire *)
Definition has_single (r : repertoire) (c : N) : Prop := exists ch, lookup r [c] = Some ch.
(** More than ten code points of the repertoire are digits. *)
Definition over_ten (r : repertoire) (is_digit : N -> bool) : Prop :=
  exists l, NoDup l /\ (10 < length l)%nat /\ forall c, In c l -> has_single r c /\ is_digit c = true.
(** The entries whose code points are all valid. *)
Definition all_valid_entry (r : repertoire) (idna_prop : N -> cps) (c : cps) : Prop :=
  (exists ch, lookup r c = Some ch) /\ forall x, In x c -> idna_prop x = txt "PVALID".

(** ** Whether a rule exists *)
(** The label can be spelled with the repertoire and is refused, or accepted. *)
Definition refused (r : repertoire) (test : cps -> res bool) (l : cps) : Prop := made_of r l /\ test l = Ok false.
Definition accepted (r : repertoire) (test : cps -> res bool) (l : cps) : Prop := made_of r l /\ test l = Ok true.
(** What is said of a rule tried with some labels. *)
Definition said (r : repertoire) (test : cps -> res bool) (labels : list cps) (x : option bool) : Prop :=
  match x with
  | Some true => labels <> [] /\ Forall (refused r test) labels
  | Some false => exists before l after, labels = before ++ l :: after /\ Forall (refused r test) before /\ accepted r test l
  | None => labels = [] \/
            exists before l after, labels = before ++ l :: after /\ Forall (refused r test) before /\ ~ made_of r l
  end.

(** ** The tags of a table *)
(** The languages named by its tags, by order of the tags, then its scripts. *)
Definition names_language (tags : cps -> tag) (t l : cps) : Prop := exists x, tg_language (tags t) = Some x /\ l = ln_format x.
Definition tags_from (tags : cps -> tag) (languages own : list cps) : Prop :=
  exists order named, Permutation languages order /\ StronglySorted (fun a b => cps_leb a b = true) order /\
    Forall2 (fun t ls => forall l, ls = [l] <-> names_language tags t l) order named /\
    Forall (fun ls : list cps => (length ls <= 1)%nat) named /\
    own = concat named ++ get_scripts tags languages true.

(** ** The labels tried *)
(** The first of ten digits in a row. *)
Definition zeros : list N :=
  [0x30; 0x660; 0x6F0; 0x966; 0x9E6; 0xA66; 0xAE6; 0xB66; 0xBE6; 0xC66; 0xCE6; 0xD66; 0xE50; 0xED0; 0xF20; 0x1040; 0x1090; 0x17E0]%N.
Definition digit_of (z c : N) : Prop := In z zeros /\ (z <= c < z + 10)%N.
(** Marks of the scripts concerned (general categories Mn and Mc). *)
Definition mark_ranges : list (N * N) :=
  [(0x7A6, 0x7B0); (0x93E, 0x94D); (0x9BE, 0x9C4); (0xA01, 0xA03); (0xABC, 0xABC); (0xB01, 0xB03); (0xBBE, 0xBC2); (0xC01, 0xC03);
   (0xC82, 0xC83); (0xD02, 0xD03); (0xD82, 0xD83); (0xE34, 0xE3A); (0xEB4, 0xEB9); (0xF71, 0xF84); (0x102B, 0x103E); (0x17B6, 0x17D3)]%N.
Definition mark (c : N) : Prop := exists a b, In (a, b) mark_ranges /\ (a <= c <= b)%N.
(** A hyphen first, last, or third and fourth. *)
Definition bad_hyphen (l : cps) : Prop :=
  (exists s, l = 45%N :: s) \/ (exists s, l = s ++ [45%N]) \/ exists a b s, l = a :: b :: 45%N :: 45%N :: s.
Definition begins_digit (l : cps) : Prop := exists z c s, l = c :: s /\ digit_of z c.
Definition mixes_digits (l : cps) : Prop := exists z z' c c', z <> z' /\ digit_of z c /\ digit_of z' c' /\ In c l /\ In c' l.
Definition begins_mark (l : cps) : Prop := exists c s, l = c :: s /\ mark c.
(** A middle dot, and nothing in Hiragana, Katakana or Han. *)
Definition japanese (c : N) : Prop :=
  (0x3041 <= c <= 0x3096 \/ 0x30A1 <= c <= 0x30FA \/ 0x3400 <= c <= 0x4DBF \/ 0x4E00 <= c <= 0x9FFF)%N.
Definition lone_dot (l : cps) : Prop := In 0x30FB%N l /\ forall c, In c l -> ~ japanese c.
(** The scripts and languages with labels of their own, and the languages and scripts tried with the labels of another. *)
Definition own_labels : list string :=
  ["Arab"; "Armn"; "Beng"; "Cyrl"; "Deva"; "Ethi"; "Geor"; "Grek"; "Gujr"; "Guru"; "zh"; "Knda"; "ko"; "Hebr"; "ja"; "Khmr"; "Laoo"; "Latn"; "Mlym"; "Mymr";
   "Orya"; "Sinh"; "Taml"; "Telu"; "Thaa"; "Thai"; "Tibt"].
Definition alike : list (string * list string) :=
  [("zh", ["yue"; "wuu"; "gan"; "och"; "cjy"; "hak"; "hsn"; "cpx"; "czh"; "mnp"; "nan"; "cdo"; "cmn"; "lzh"; "zhx"; "czo"; "ltc"]);
   ("ko", ["oko"; "okm"]); ("Hebr", ["he"; "iw"; "hbo"]); ("ja", ["ojp"; "Jpan"; "Kana"; "Hira"]); ("Latn", ["Latg"; "Latf"]); ("Arab", ["Aran"]); ("Cyrl", ["Cyrs"]);
   ("Knda", ["kan"])].
(** Not of this family: Achinese and Georgian. *)
Definition strangers : list (string * string) := [("zh", "ace"); ("Knda", "ka")].
