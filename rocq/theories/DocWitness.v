(** A sample document. *)
From Coq Require Import Ascii.
From Verif Require Import Base BaseFacts UtilsModel CharModel RepSpec LgrModel MetaModel MetaSpec Rfc7940Model SerialModel SerialSpec SerialWitness ActionModel
  ClassModel ClassSpec ClassProofs RuleModel RuleSpec RuleTable RulesXmlModel RulesXmlSpec RulesXmlWitness
  LabelModel EvalModel EvalSpec EvalWitness DocModel ReadySpec.
Open Scope string_scope.
Open Scope list_scope.
Open Scope nat_scope.

Definition d_data : list data_elem :=
  [DChar (txt "0061") (mkAttrs None None None None (Some "v")) [];
   DChar (txt "0062") (mkAttrs None (Some "after") None None None) [mkVarElem (txt "0063") (Some "blocked") None None None None];
   DChar (txt "0063") (mkAttrs None None None None None) []].
Definition d_vowel : xelem := el "class" [("name", "vowel"); ("from-tag", "v")] [].
Definition d_after : xelem := el "rule" [("name", "after")] [el "look-behind" [] [el "class" [("by-ref", "vowel")] []]; el "anchor" [] []].
Definition d_double : xelem := el "rule" [("name", "double")] [el "char" [("cp", "0061"); ("count", "2+")] []].
Definition d_act : xelem := el "action" [("disp", "invalid"); ("match", "double")] [].
Definition d_doc : document := mkDocument (Some []) d_data (Some [d_vowel; d_after; d_double; d_act]).
Definition d_db : database := (LgrModel.mkDb (fun _ => true) (fun _ => "Latn"), u0).
Definition d_read : res (option loaded) := read_document every_lang ascii_digit (Some d_db) 30 false false d_doc.
Definition d_loaded : loaded := match d_read with Ok (Some x) => x | _ => mkLoaded new_metadata (new_lgr None true) blank [] end.
Lemma d_ok : d_read = Ok (Some d_loaded).
Proof. vm_compute. reflexivity. Qed.
Fixpoint each_onceb (l : list xelem) : bool :=
  match l with
  | [] => true
  | e :: l' => match x_get e "name" with
               | Some n => forallb (fun x => negb (ostring_eqb (x_get x "name") (Some n))) l'
               | None => true
               end && each_onceb l'
  end%bool.
Lemma each_onceb_sound : forall l, each_onceb l = true -> each_once l.
Proof.
  induction l as [|e l IH]; intros H pre x post n El En y Hy; [destruct pre; discriminate|]. cbn [each_onceb] in H. apply andb_prop in H. destruct H as [H1 H2].
  destruct pre as [|z pre]; [destruct Hy|]. cbn [app] in El. injection El as <- El. destruct Hy as [<-|Hy]; [|exact (IH H2 _ _ _ _ El En y Hy)].
  intro K. rewrite K in H1. rewrite forallb_forall in H1. assert (Hx : In x l) by (rewrite El; apply in_elt). apply H1 in Hx. rewrite En in Hx.
  apply Bool.negb_true_iff in Hx. assert (T : ostring_eqb (Some n) (Some n) = true) by (apply ostring_eqb_eq; reflexivity). congruence.
Qed.
Lemma d_orderly : orderly_names (rules_part d_doc).
Proof.
  split; [apply each_onceb_sound; vm_compute; reflexivity|]. split; [apply each_onceb_sound; vm_compute; reflexivity|].
  intros e n He En [t Ht]. change (class_elems (rules_part d_doc)) with [d_vowel] in He. destruct He as [<-|[]]. cbn in En. injection En as <-. discriminate.
Qed.
Notation d_look := (ru_classes (ld_rules d_loaded)).
Notation d_rules := (ru_rules (ld_rules d_loaded)).
Notation d_acts := (ru_actions (ld_rules d_loaded)).
Notation d_rep := (lg_rep (ld_lgr d_loaded)).
Lemma d_defined : all_defined d_rep d_acts d_rules.
Proof. apply defined_check. vm_compute. reflexivity. Qed.
Lemma d_rules_are : map snd d_rules = [Rule 0 (Some "after") None [MBehind [MClass (ClPlain None (Some "vowel") None None []) None]; MAnchor];
  Rule 1 (Some "double") None [MChar [97]%N (Some (CAtLeast 2))]].
Proof. vm_compute. reflexivity. Qed.
Lemma d_vowels : denotes u0 d_look (ClPlain None (Some "vowel") None None []) (fun x => (x <= 200)%N /\ In x [97]%N).
Proof.
  apply (D_by_ref _ _ None "vowel" None None [] (ClPlain (Some "vowel") None (Some "v") None [])); [vm_compute; reflexivity|].
  eapply D_tag; [vm_compute; reflexivity|]. constructor. intro x. reflexivity.
Qed.
Lemma d_good : good_rules u0 d_look d_rules.
Proof.
  intros n r H. apply (dget_In _ string_eqb_iff) in H. apply (in_map snd) in H. rewrite d_rules_are in H. cbn [snd] in H.
  destruct H as [<-|[<-|[]]].
  - cbn [good_rule good_matcher]. split; [discriminate|]. split; [|auto]. split; [|auto]. split; [|exact I]. split; [exact I|].
    intros P HP. exists 97%N. apply (denotes_unique _ _ _ _ _ HP d_vowels). split; [lia|left; reflexivity].
  - cbn [good_rule good_matcher]. split; [discriminate|]. split; [|exact I]. split; [discriminate|]. unfold good_count, max_label. lia.
Qed.
Definition d_eval (label : cps) : res elig := snd (eligible_e u0 d_look d_rules 30 d_rep d_acts label false (ld_cache d_loaded)).
Lemma d_cached : ld_cache d_loaded <> [].
Proof. vm_compute. discriminate. Qed.
Lemma d_evaluates :
  (exists e, d_eval [97; 98; 99]%N = Ok e /\ el_ok e = true /\ el_disp e = Some "valid") /\
  (exists e, d_eval [98; 97]%N = Ok e /\ el_invalid e = [(98%N, Some [Some "after"])]) /\
  (exists e, d_eval [97; 97]%N = Ok e /\ el_invalid e = [] /\ el_disp e = Some "invalid").
Proof. repeat split; eexists; vm_compute; auto. Qed.

(** Reading without a database, and evaluating with one, may give other answers
    when a class is defined twice. *)
Lemma redefined_differs : exists u fuel l g s g' s' t' n w, process_rules (Some u) fuel false l g s = Ok (g', s') /\ process_rules None fuel false l g s = Ok (g', t') /\
  ~ orderly_names l /\ matched u fuel g' s' n w = Some (Ok true) /\ matched u fuel g' t' n w = Some (Ok false).
Proof.
  set (p := got (process_rules (Some u0) 30 false redefining blank start) (blank, start)).
  set (q := got (process_rules None 30 false redefining blank start) (blank, start)).
  exists u0, 30%nat, redefining, blank, start, (fst p), (snd p), (snd q), "R", [97%N].
  split; [vm_compute; reflexivity|]. split; [vm_compute; reflexivity|]. split.
  - intros [H _]. change (class_elems redefining) with [again "0061"; again "0062"] in H. apply (H [again "0061"] (again "0062") [] "A" eq_refl eq_refl (again "0061") (or_introl eq_refl)). reflexivity.
  - split; vm_compute; reflexivity.
Qed.
(** A document the schema allows. *)
Lemma no_meta : forall db fuel allow force, read_document every_lang ascii_digit db fuel allow force (mkDocument None d_data None) = Raise TypeError.
Proof. intros. vm_compute. reflexivity. Qed.
