(** Sample documents read without a database. *)
From Verif Require Import Base BaseFacts UtilsModel CharModel RepSpec LgrModel MetaModel MetaSpec SerialModel SerialSpec SerialWitness ActionModel ClassModel RuleModel RuleSpec RulesXmlModel RulesXmlSpec RulesXmlWitness
  LabelModel EvalModel EvalSpec DocModel ReadySpec DocFinal DocWitness LateSpec LateFinal.
Open Scope string_scope.
Open Scope list_scope.
Open Scope nat_scope.

Definition e_read : res (option loaded) := read_document every_lang ascii_digit None 30 false false d_doc.
Definition e_loaded : loaded := match e_read with Ok (Some x) => x | _ => mkLoaded new_metadata (new_lgr None true) blank [] end.
Lemma e_ok : e_read = Ok (Some e_loaded).
Proof. vm_compute. reflexivity. Qed.
Lemma e_empty : ld_cache e_loaded = [] /\ lg_db (ld_lgr e_loaded) = None /\ ru_rules (ld_rules e_loaded) <> [].
Proof. split; [|split]; [vm_compute; reflexivity|vm_compute; reflexivity|vm_compute; discriminate]. Qed.
Lemma some_inj : forall (A : Type) (x y : A), Ok (Some x) = Ok (Some y) -> x = y.
Proof. intros A x y H. injection H as H. exact H. Qed.
Lemma given_inv : forall db y m g r k, give_database db y = mkLoaded m g r k -> ld_rules y = r /\ lg_rep (ld_lgr y) = lg_rep g.
Proof. intros db y m g r k H. unfold give_database in H. injection H as _ <- <- _. split; reflexivity. Qed.
Lemma e_given : give_database d_db e_loaded = mkLoaded (ld_meta d_loaded) (ld_lgr d_loaded) (ld_rules d_loaded) [].
Proof.
  destruct (read_without _ _ _ _ _ _ _ d_ok) as [y [H1 [_ H2]]]. pose proof e_ok as H. unfold e_read in H. rewrite H in H1. apply some_inj in H1. rewrite H1. exact H2.
Qed.
Lemma e_rules : ld_rules e_loaded = ld_rules d_loaded.
Proof. exact (proj1 (given_inv _ _ _ _ _ _ e_given)). Qed.
Lemma e_rep : lg_rep (ld_lgr e_loaded) = lg_rep (ld_lgr d_loaded).
Proof. exact (proj2 (given_inv _ _ _ _ _ _ e_given)). Qed.
Lemma e_resolve : all_resolve u0 (ru_classes (ld_rules e_loaded)) (ru_rules (ld_rules e_loaded)).
Proof. rewrite e_rules. exact (proj1 (proj2 (proj2 (document_ready _ _ _ _ _ _ _ _ _ d_ok d_orderly)))). Qed.
Lemma e_good : good_rules u0 (ru_classes (ld_rules e_loaded)) (ru_rules (ld_rules e_loaded)).
Proof. rewrite e_rules. exact d_good. Qed.
Lemma e_defined : all_defined (lg_rep (ld_lgr e_loaded)) (ru_actions (ld_rules e_loaded)) (ru_rules (ld_rules e_loaded)).
Proof. rewrite e_rules, e_rep. exact d_defined. Qed.
Lemma e_admits : admits (Some (fst d_db)) false (ld_lgr e_loaded).
Proof. right. intros x d _ H. injection H as <-. reflexivity. Qed.

(** A database for which b is not allowed. *)
Definition strict_db : database := (LgrModel.mkDb (fun x => negb (N.eqb x 98)) (fun _ => "Latn"), u0).
Lemma e_strict : ~ admits (Some (fst strict_db)) false (ld_lgr e_loaded).
Proof.
  intros [H|H]; [discriminate|]. assert (K : SerialSpec.occurs (ld_lgr e_loaded) 98%N).
  { destruct (lookup (lg_rep (ld_lgr e_loaded)) [98]%N) as [ch|] eqn:E; [|vm_compute in E; discriminate]. exists [98]%N, ch. split; [exact E|]. left. left. reflexivity. }
  specialize (H _ _ K eq_refl). discriminate.
Qed.
(** Given later, it is not checked against the code points that are there: b is
    listed, and cannot be asked for. *)
Lemma unchecked : exists d fuel y db e, read_document every_lang ascii_digit None fuel false false d = Ok (Some y) /\
  read_document every_lang ascii_digit (Some db) fuel false false d = Raise e /\
  (exists ch, lookup (lg_rep (ld_lgr (give_database db y))) [98]%N = Some ch) /\
  lgr_get_char (ld_lgr (give_database db y)) [98]%N = Raise (CharInvalidIdnaProperty [98]%N).
Proof.
  exists d_doc, 30, e_loaded, strict_db, (CharInvalidIdnaProperty [98]%N). split; [pose proof e_ok as H; unfold e_read in H; exact H|]. split; [vm_compute; reflexivity|]. split; [eexists; vm_compute; reflexivity|vm_compute; reflexivity].
Qed.
(** With [force] the document is read both ways, with other code points. *)
Lemma forced_apart : exists d fuel x y db, read_document every_lang ascii_digit None fuel false true d = Ok (Some y) /\
  read_document every_lang ascii_digit (Some db) fuel false true d = Ok (Some x) /\
  (exists ch, lookup (lg_rep (ld_lgr (give_database db y))) [98]%N = Some ch) /\ lookup (lg_rep (ld_lgr x)) [98]%N = None.
Proof.
  exists d_doc, 30. do 2 eexists. exists strict_db. split; [vm_compute; reflexivity|]. split; [vm_compute; reflexivity|]. split; [eexists; vm_compute; reflexivity|vm_compute; reflexivity].
Qed.
(** A rule may need a property the database does not know: the document can only
    be read without. *)
Definition d_property : xelem := el "class" [("name", "dots"); ("property", "sc:Cyrl")] [].
Definition d_dotted : xelem := el "rule" [("name", "dotted")] [el "class" [("by-ref", "dots")] []].
Definition d_unknown : document := mkDocument (Some []) d_data (Some [d_vowel; d_after; d_property; d_dotted]).
Definition f_read : res (option loaded) := read_document every_lang ascii_digit None 30 false false d_unknown.
Definition f_loaded : loaded := match f_read with Ok (Some x) => x | _ => mkLoaded new_metadata (new_lgr None true) blank [] end.
Lemma unknown_property : f_read = Ok (Some f_loaded) /\ orderly_names (rules_part d_unknown) /\
  exists e, read_document every_lang ascii_digit (Some d_db) 30 false false d_unknown = Raise e.
Proof.
  split; [vm_compute; reflexivity|]. split; [|eexists; vm_compute; reflexivity].
  split; [apply each_onceb_sound; vm_compute; reflexivity|]. split; [apply each_onceb_sound; vm_compute; reflexivity|].
  intros e n He En [t Ht]. change (class_elems (rules_part d_unknown)) with [d_vowel; d_property] in He. destruct He as [<-|[<-|[]]]; cbn in En; injection En as <-; discriminate.
Qed.
