(** A document with all kinds of elements, and documents that are not read back. *)
From Verif Require Import Base BaseFacts UtilsModel CharModel RepSpec LgrModel MetaModel MetaSpec Rfc7940Model SerialModel SerialSpec SerialWitness ActionModel
  ClassModel RuleModel RulesXmlModel RulesXmlSpec RulesXmlWitness DocModel ReadySpec DocWitness AgainSpec.
Open Scope string_scope.
Open Scope list_scope.

Definition a_meta : list meta_elem :=
  [MVersion (Some (txt "1")) None; MLanguageE (Some (txt "und-Latn")); MDescriptionE (Some (txt "A sample.")) (Some (txt "text/plain"));
   MReferencesE [mkRefElem (Some "0") (Some "first") "The book"]].
Definition a_data : list data_elem :=
  [DChar (txt "0061") (mkAttrs None None None (Some "0") (Some "v")) [];
   DChar (txt "0061 0063") (mkAttrs None None None None None) [];
   DChar (txt "0061 0062") (mkAttrs (Some "both") None None None None) [];
   DChar (txt "0062") (mkAttrs None (Some "after") None None None) [mkVarElem (txt "0063") (Some "blocked") None None None None];
   DChar (txt "0063") (mkAttrs None None None None None) [];
   DRange (txt "0064") (txt "0066") (mkAttrs None None None None (Some "v w")) []].
Definition a_doc : document := mkDocument (Some a_meta) a_data (Some [d_double; d_act; d_vowel; d_after]).
Definition a_read (d : document) : res (option loaded) := read_document every_lang ascii_digit (Some d_db) 30 false false d.
Definition a_loaded : loaded := match a_read a_doc with Ok (Some x) => x | _ => d_loaded end.
Definition a_back : loaded := match a_read (write_document a_loaded) with Ok (Some x) => x | _ => d_loaded end.
Lemma a_ok : a_read a_doc = Ok (Some a_loaded).
Proof. vm_compute. reflexivity. Qed.
Lemma a_plain : plain_document a_doc.
Proof.
  intros ml e E H. injection E as <-. cbn [In a_meta] in H.
  destruct H as [<-|[<-|[<-|[<-|[]]]]]; cbn [plain_meta]; try exact I.
  - split; [|left; discriminate]. vm_compute. intuition discriminate.
  - intros r [<-|[]]. split; discriminate.
Qed.
Fixpoint qualifiedb (n : nat) (e : xelem) : bool :=
  match n with O => false | S m => (match x_space e with NoNs => false | _ => true end && forallb (qualifiedb m) (x_children e))%bool end.
Lemma qualifiedb_sound : forall n e, qualifiedb n e = true -> qualified e.
Proof.
  induction n as [|n IH]; intros e H; [discriminate|]. cbn [qualifiedb] in H. apply andb_prop in H. destruct H as [H1 H2]. constructor; [intro E; rewrite E in H1; discriminate|].
  rewrite forallb_forall in H2. apply Forall_forall. intros c Hc. apply IH, H2, Hc.
Qed.
Lemma a_qualified : Forall qualified (rules_part a_doc).
Proof. apply Forall_forall. intros e H. apply (qualifiedb_sound 9). revert e H. apply forallb_forall. vm_compute. reflexivity. Qed.
Lemma d_qualified : Forall qualified (rules_part d_doc).
Proof. apply Forall_forall. intros e H. apply (qualifiedb_sound 9). revert e H. apply forallb_forall. vm_compute. reflexivity. Qed.
Lemma a_orderly : orderly_names (rules_part a_doc).
Proof.
  split; [apply each_onceb_sound; vm_compute; reflexivity|]. split; [apply each_onceb_sound; vm_compute; reflexivity|].
  intros e n He En [t Ht]. change (class_elems (rules_part a_doc)) with [d_vowel] in He. destruct He as [<-|[]]. cbn in En. injection En as <-. discriminate.
Qed.
Lemma a_again : a_read (write_document a_loaded) = Ok (Some a_back).
Proof. vm_compute. reflexivity. Qed.
(** The order of sequences of one length is kept; rules and actions change places. *)
Lemma a_written : map (fun e => match e with DChar c _ _ => c | DRange f _ _ _ => f | DOther => [] end) (dc_data (write_document a_loaded)) = map txt ["0061"; "0061 0063"; "0061 0062"; "0062"; "0063"; "0064"] /\
  dc_rules (write_document a_loaded) = Some [d_vowel; d_double; d_after; d_act] /\ write_document a_loaded <> a_doc.
Proof. split; [vm_compute; reflexivity|]. split; [vm_compute; reflexivity|]. intro H. apply (f_equal dc_rules) in H. vm_compute in H. discriminate. Qed.

(** ** Not read back *)
Definition described (t : cps) (ty : option string) : document := mkDocument (Some [MDescriptionE (Some t) (option_map txt ty)]) [] None.
Lemma empty_description : exists x e, a_read (described [] (Some "text/plain")) = Ok (Some x) /\ a_read (write_document x) = Raise e.
Proof.
  exists (match a_read (described [] (Some "text/plain")) with Ok (Some x) => x | _ => d_loaded end). eexists. split; vm_compute; reflexivity.
Qed.
Lemma carriage_return : exists x x', a_read (described [13; 13; 10]%N None) = Ok (Some x) /\ a_read (write_document x) = Ok (Some x') /\ md_description (ld_meta x') <> md_description (ld_meta x).
Proof.
  set (x := match a_read (described [13; 13; 10]%N None) with Ok (Some x) => x | _ => d_loaded end).
  exists x, (match a_read (write_document x) with Ok (Some x) => x | _ => d_loaded end). split; [vm_compute; reflexivity|]. split; [vm_compute; reflexivity|]. vm_compute. discriminate.
Qed.
Lemma d_plain : plain_document d_doc.
Proof. intros ml e E H. injection E as <-. destruct H. Qed.
