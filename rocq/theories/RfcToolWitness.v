(** Sample documents for the RFC 7940 tool. *)
From Verif Require Import Base UtilsModel CharModel RepSpec ActionModel LgrModel MetaModel MetaSpec SerialModel SerialSpec SerialWitness Rfc7940Model.
From Verif Require Import ClassModel RuleModel RulesXmlModel RulesXmlSpec RulesXmlWitness DocModel DocWitness CompareModel ChecksModel ChecksSpec ReadySpec RfcToolModel RfcToolSpec.
Open Scope string_scope.
Open Scope list_scope.

(** Lower case letters may be used. *)
Definition w_ucd : ucd := mkUcd (txt "6.3.0") (fun c => if (N.leb 97 c && N.leb c 122)%bool then "PVALID" else "DISALLOWED") (fun _ => false).
Definition w_tool (rng : option bool) (quiet test : bool) (d : document) : res string :=
  rfc7940_tool every_lang ascii_digit (fun _ => true) (txt "2020-01-01") (fun n => n) w_ucd (fun _ => "Latn") u0 (fun _ _ => Some "Latn") ["Latn"] 30 rng quiet test d.
Definition w_read (d : document) : res (option loaded) :=
  read_document every_lang ascii_digit (Some (tool_db w_ucd (fun _ => "Latn"), u0)) 30 false true d.
Definition w_reads (d : document) : loaded := match w_read d with Ok (Some x) => x | _ => mkLoaded new_metadata (new_lgr None true) blank [] end.

Definition w_meta : list meta_elem := [MVersion (Some (txt "1")) None; MLanguageE (Some (txt "en")); MUnicodeE (Some (txt "6.3.0")); MStartE (Some (txt "2019-05-01"))].
Definition plain := mkAttrs None None None None None.
Definition w_chr (s : string) (vs : list string) : data_elem :=
  DChar (txt s) plain (map (fun v => mkVarElem (txt v) (Some "blocked") None None None None) vs).
Definition w_doc (data : list data_elem) : document := mkDocument (Some w_meta) data None.
(** A symmetric document, one whose variant has no reverse mapping, one with a
    code point that cannot be entered. *)
Definition w_good : document := w_doc [w_chr "0061" ["0062"]; w_chr "0062" ["0061"]].
Definition w_odd : document := w_doc [w_chr "0061" ["0062"]; w_chr "0062" []].
Definition w_bad : document := w_doc [w_chr "0041" []; w_chr "0062" []].
(** The same code point in a range. *)
Definition w_range : document := w_doc [DRange (txt "0060") (txt "0061") plain []; w_chr "0062" []].
Definition w_silent : document := mkDocument (Some [MUnicodeE (Some (txt "6.3.0"))]) [w_chr "0061" []] None.
Definition w_unversioned : document := mkDocument (Some [MVersion None None; MLanguageE (Some (txt "en")); MUnicodeE (Some (txt "6.3.0"))]) [w_chr "0061" []] None.

Lemma w_verdicts : w_tool (Some true) true false w_good = Ok ("PASS" ++ nl)%string /\ w_tool (Some true) true false w_odd = Ok ("WARN" ++ nl)%string /\
  w_tool (Some true) true false w_bad = Ok ("FAIL" ++ nl)%string.
Proof. split; [|split]; vm_compute; reflexivity. Qed.
Lemma w_are_read : Forall (fun d => w_read d = Ok (Some (w_reads d))) [w_good; w_odd; w_bad; w_range; w_silent; w_unversioned].
Proof. repeat constructor; vm_compute; reflexivity. Qed.
(** What is in the range and cannot be entered is left out. *)
Lemma w_range_passes : w_tool (Some true) true false w_range = Ok ("PASS" ++ nl)%string /\ ~ idna_ok w_ucd 96 /\ lookup (lg_rep (ld_lgr (w_reads w_range))) [96%N] = None.
Proof. split; [vm_compute; reflexivity|]. split; [|vm_compute; reflexivity]. unfold idna_ok. cbn. intuition discriminate. Qed.
Lemma w_options : w_tool None true false w_good = Ok ("FAIL" ++ nl)%string /\ w_tool (Some true) true true w_good = Ok ("FAIL" ++ nl)%string.
Proof. split; vm_compute; reflexivity. Qed.
Lemma w_no_language : w_tool (Some true) true false w_silent = Ok ("FAIL" ++ nl)%string.
Proof. vm_compute. reflexivity. Qed.
Lemma w_crash : untexted w_unversioned = true /\ w_tool (Some true) true false w_unversioned = Raise TypeError.
Proof. split; vm_compute; reflexivity. Qed.
Lemma w_silent_has_none : forall t, ~ In (MLanguageE t) (meta_part w_silent).
Proof. intros t [H|[]]. discriminate. Qed.
Lemma w_range_shown : exists d f l a vs x, In (DRange f l a vs) (dc_data d) /\ parse_cp f = Ok x /\ ~ idna_ok w_ucd x /\
  w_tool (Some true) true false d = Ok ("PASS" ++ nl)%string /\ lookup (lg_rep (ld_lgr (w_reads d))) [x] = None.
Proof.
  exists w_range, (txt "0060"), (txt "0061"), plain, [], 96%N. split; [left; reflexivity|]. split; [vm_compute; reflexivity|].
  destruct w_range_passes as [H1 [H2 H3]]. auto.
Qed.
Lemma w_version_shown : exists d x, w_read d = Ok (Some x) /\ w_tool (Some true) true false d = Raise TypeError.
Proof. exists w_unversioned, (w_reads w_unversioned). split; [vm_compute; reflexivity|exact (proj2 w_crash)]. Qed.
