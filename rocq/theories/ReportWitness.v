(** Sample documents for the reports of the XML reader. *)
From Verif Require Import Base BaseFacts UtilsModel CharModel RefModel LgrModel Rfc7940Model MetaModel SerialModel ReportSpec.
Open Scope string_scope.
Open Scope list_scope.

Definition bare_attrs : attrs := mkAttrs None None None None None.
Definition ch (s : string) : data_elem := DChar (txt s) bare_attrs [].
Definition ascii_digit (c : N) : bool := (N.leb 48 c && N.leb c 57)%bool.
Definition two_letters (l : cps) : option bool := Some (Nat.eqb (length l) 2).
Definition sample_doc : xml_doc :=
  mkXml [MLanguageE (Some (txt "fr")); MOtherE] [ch "0061"; ch "0061 0062"; DRange (txt "0070") (txt "0075") bare_attrs []; ch "0061"; ch "0041"].
Definition unordered_ranges : xml_doc :=
  mkXml [] [DRange (txt "0070") (txt "0075") bare_attrs []; ch "0041"; DRange (txt "0061") (txt "0063") bare_attrs []].
Definition reading (force : bool) (x : xml_doc) : option results * res unit :=
  let '(o, r) := parse_document two_letters ascii_digit None true force x in (option_map (fun p => md_checks (fst p)) o, r).
Lemma sample_reading : reading true sample_doc = 
  (Some [("metadata_language", true); ("parse_xml", false); ("explicit_unicode_version", false);
         ("char_strict_ascending_order", false); ("codepoint_valid", false); ("char_ascending_order", false)], Ok tt).
Proof. vm_compute. reflexivity. Qed.
Lemma ranges_unseen : exists m g, parse_document two_letters ascii_digit None true false unordered_ranges = (Some (m, g), Ok tt) /\
  dget String.eqb "char_ascending_order" (md_checks m) = Some true /\
  dget String.eqb "char_strict_ascending_order" (md_checks m) = Some true.
Proof. eexists _, _. split; [vm_compute; reflexivity|]. vm_compute. auto. Qed.
