(** Cases for the review tool. *)
From Coq Require Import Ascii Permutation.
From Verif Require Import Base BaseFacts UtilsModel CharModel RepSpec LgrModel LgrSpec LgrReach LgrProofs ValidateSpec LabelSpec LangModel ReviewModel GeneralModel GeneralSpec GeneralProofs WholeModel WholeSpec WholeTotal WholeWitness HarmToolModel HarmToolSpec HarmToolProofs RevToolModel RevToolSpec RevToolProofs RevToolFinal.
Open Scope string_scope.
Open Scope list_scope.

(** Files: two tables and a reference, one refused by the schema, one broken. *)
Definition shelf : dict string (res (option (option cps * idn_table))) :=
  [("in/x.xml", Ok (Some (Some (txt "1"), w_idn))); ("in/y.xml", Ok (Some (None, w_ref))); ("ref/z.xml", Ok (Some (Some (txt "2"), w_ref)));
   ("other/x.xml", Ok (Some (Some (txt "3"), w_idn)));
   ("a_b", Ok (Some (Some (txt "1"), w_idn))); ("a", Ok (Some (Some (txt "1"), w_idn))); ("c", Ok (Some (Some (txt "1"), w_idn))); ("b_c", Ok (Some (Some (txt "1"), w_idn)));
   ("bad.xml", Ok None)].
Definition w_files (p : string) : res (option (option cps * idn_table)) := match dget String.eqb p shelf with Some x => x | None => Raise ValueError end.
Definition w_worlds (t : idn_table) : world := w_world.
Definition w_today : cps := txt "2026-01-01".
Notation w_review order := (review_tool w_worlds w_today order w_files).
Definition before : dict string content := [("kept.json", Other (txt "k")); ("x.xml_z.xml.json", Other (txt "old"))].

Lemma rev_order : forall l : list string, Permutation (rev l) l.
Proof. intros l. apply Permutation_sym, Permutation_rev. Qed.
Lemma same_order : forall l : list string, Permutation ((fun x => x) l) l.
Proof. intros l. apply Permutation_refl. Qed.
Definition completes (x y : idn_table) : bool := match review_lgr w_world x y with Ok _ => true | Raise _ => false end.
Definition all_complete : bool := forallb (fun x => forallb (completes x) [w_idn; w_ref]) [w_idn; w_ref].
Lemma w_complete : all_complete = true.
Proof. vm_compute. reflexivity. Qed.
Lemma w_either : forall p v x, w_files p = Ok (Some (v, x)) -> In x [w_idn; w_ref].
Proof.
  intros p v x H. unfold w_files, shelf in H. cbn [dget] in H.
  repeat match type of H with context [if ?b then _ else _] => destruct b; [first [discriminate H | injection H as <- <-; cbn [In]; auto]|] end. discriminate H.
Qed.
Lemma w_completing : forall tables refs, completing w_worlds w_files tables refs.
Proof.
  intros tables refs t r v x v' y _ _ Ht Hr. apply w_either in Ht, Hr. pose proof w_complete as C. unfold all_complete in C. rewrite forallb_forall in C. specialize (C x Ht). cbv beta in C. rewrite forallb_forall in C. specialize (C y Hr).
  unfold completes in C. unfold w_worlds. destruct (review_lgr w_world x y) as [[w s]|e]; [eauto|discriminate C].
Qed.
Lemma w_readable : readable w_files ["in/x.xml"; "in/y.xml"] /\ readable w_files ["ref/z.xml"; "in/x.xml"].
Proof. split; intros p I; cbn [In] in I; repeat (destruct I as [<-|I]; [eexists; eexists; reflexivity|]); destruct I. Qed.
Lemma w_separate : separate ["in/x.xml"; "in/y.xml"] ["ref/z.xml"; "in/x.xml"].
Proof.
  intros t r t' r' f It It' Ir Ir' H H'. apply named in H. apply named in H'. rewrite H in H'. cbn [In] in *.
  repeat (destruct It as [<-|It]; [|]); try destruct It; repeat (destruct It' as [<-|It']; [|]); try destruct It';
  repeat (destruct Ir as [<-|Ir]; [|]); try destruct Ir; repeat (destruct Ir' as [<-|Ir']; [|]); try destruct Ir'; first [split; reflexivity | discriminate H'].
Qed.
Definition heads (d : dict string content) : list (string * option header) :=
  map (fun p => (fst p, match snd p with Report h _ _ => Some h | _ => None end)) d.
Definition w_dir : dict string content := fst (w_review (fun l => l) ["in/x.xml"; "in/y.xml"; "in/x.xml"] ["ref/z.xml"; "in/x.xml"] before).
Lemma w_heads : heads w_dir =
  [("kept.json", None);
   ("x.xml_z.xml.json", Some (mkHeader w_today ("x.xml", Some (txt "1")) (Some ("z.xml", Some (txt "2")))));
   ("x.xml_x.xml.json", Some (mkHeader w_today ("x.xml", Some (txt "1")) (Some ("x.xml", Some (txt "1")))));
   ("y.xml_z.xml.json", Some (mkHeader w_today ("y.xml", None) (Some ("z.xml", Some (txt "2")))));
   ("y.xml_x.xml.json", Some (mkHeader w_today ("y.xml", None) (Some ("x.xml", Some (txt "1")))))].
Proof. vm_compute. reflexivity. Qed.

(** ** One file for two pairs *)
Definition table_at (f : string) (d : dict string content) : option (string * option cps) :=
  match dget String.eqb f d with Some (Report h _ _) => Some (he_table h) | _ => None end.
Lemma other_table : forall t r c a v f d, (forall x y, w_files t = Ok (Some (x, y)) -> (base_name t, x) <> (a, v)) ->
  table_at f d = Some (a, v) -> dget String.eqb f d = Some c -> ~ holds_review w_worlds w_today w_files t r c.
Proof.
  intros t r c a v f d N Ta D (a' & b & v1 & x & v2 & y & w & s & F1 & _ & R & _ & _ & ->). unfold table_at in Ta. rewrite D in Ta. cbn in Ta. injection Ta as -> ->.
  apply base_file in F1. subst. exact (N v x R eq_refl).
Qed.
Definition ends_well (x : dict string content * res (list string)) : bool := match snd x with Ok [] => true | _ => false end.
Lemma ended : forall x, ends_well x = true -> x = (fst x, Ok []).
Proof. intros [d [[|s l]|e]] H; try discriminate H. reflexivity. Qed.
Lemma w_clash : ends_well (w_review (fun l => l) ["a_b"; "a"] ["c"; "b_c"] []) = true /\
  table_at "a_b_c.json" (fst (w_review (fun l => l) ["a_b"; "a"] ["c"; "b_c"] [])) = Some ("a", Some (txt "1")).
Proof. vm_compute. split; reflexivity. Qed.
Lemma clash_refuted : exists tables refs dir' t r f, readable w_files tables /\ readable w_files refs /\ different_names tables /\ different_names refs /\
  w_review (fun l => l) tables refs [] = (dir', Ok []) /\ In t tables /\ In r refs /\ report_of t r f /\
  forall c, dget String.eqb f dir' = Some c -> ~ holds_review w_worlds w_today w_files t r c.
Proof.
  destruct w_clash as [E T]. exists ["a_b"; "a"], ["c"; "b_c"], (fst (w_review (fun l => l) ["a_b"; "a"] ["c"; "b_c"] [])), "a_b", "c", "a_b_c.json".
  split; [intros p I; cbn [In] in I; repeat (destruct I as [<-|I]; [eexists; eexists; reflexivity|]); destruct I|].
  split; [intros p I; cbn [In] in I; repeat (destruct I as [<-|I]; [eexists; eexists; reflexivity|]); destruct I|].
  split; [intros p p' n I I' H H'; apply base_file in H, H'; cbn [In] in I, I'; destruct I as [<-|[<-|[]]]; destruct I' as [<-|[<-|[]]]; try reflexivity; subst n; discriminate H'|].
  split; [intros p p' n I I' H H'; apply base_file in H, H'; cbn [In] in I, I'; destruct I as [<-|[<-|[]]]; destruct I' as [<-|[<-|[]]]; try reflexivity; subst n; discriminate H'|].
  split; [apply ended; exact E|]. split; [left; reflexivity|]. split; [left; reflexivity|]. split; [apply named; reflexivity|].
  intros c D. eapply other_table; [|exact T|exact D]. intros x y _ Q. discriminate Q.
Qed.
Lemma w_same : ends_well (w_review (fun l => l) ["in/x.xml"; "other/x.xml"] ["ref/z.xml"] []) = true /\
  table_at "x.xml_z.xml.json" (fst (w_review (fun l => l) ["in/x.xml"; "other/x.xml"] ["ref/z.xml"] [])) = Some ("x.xml", Some (txt "3")).
Proof. vm_compute. split; reflexivity. Qed.
Lemma same_refuted : exists tables refs dir' t r f, readable w_files tables /\ readable w_files refs /\ no_underscore tables /\ no_underscore refs /\
  w_review (fun l => l) tables refs [] = (dir', Ok []) /\ In t tables /\ In r refs /\ report_of t r f /\
  forall c, dget String.eqb f dir' = Some c -> ~ holds_review w_worlds w_today w_files t r c.
Proof.
  destruct w_same as [E T]. exists ["in/x.xml"; "other/x.xml"], ["ref/z.xml"], (fst (w_review (fun l => l) ["in/x.xml"; "other/x.xml"] ["ref/z.xml"] [])), "in/x.xml", "ref/z.xml", "x.xml_z.xml.json".
  assert (U : forall n : string, existsb (Ascii.eqb "_"%char) (list_ascii_of_string n) = false -> forall a b, n <> (a ++ "_" ++ b)%string).
  { intros n H a b ->. rewrite chars_app in H. rewrite existsb_app in H. cbn in H. rewrite orb_true_r in H. discriminate H. }
  split; [intros p I; cbn [In] in I; repeat (destruct I as [<-|I]; [eexists; eexists; reflexivity|]); destruct I|].
  split; [intros p I; cbn [In] in I; repeat (destruct I as [<-|I]; [eexists; eexists; reflexivity|]); destruct I|].
  split; [intros p n a b I H; apply base_file in H; cbn [In] in I; destruct I as [<-|[<-|[]]]; subst n; apply U; reflexivity|].
  split; [intros p n a b I H; apply base_file in H; cbn [In] in I; destruct I as [<-|[]]; subst n; apply U; reflexivity|].
  split; [apply ended; exact E|]. split; [left; reflexivity|]. split; [left; reflexivity|]. split; [apply named; reflexivity|].
  intros c D. eapply other_table; [|exact T|exact D]. intros x y R Q. injection Q as Q. subst x. discriminate R.
Qed.
(** ** Announced as skipped *)
Lemma w_bad : w_review (fun l => l) ["bad.xml"; "in/x.xml"] ["ref/z.xml"] [] = ([("None_z.xml.json", Empty)], Raise TypeError).
Proof. vm_compute. reflexivity. Qed.
Lemma skipped_refuted : exists p t r, w_files p = Ok None /\ readable w_files [t; r] /\ w_review (fun l => l) [p; t] [r] [] = ([("None_z.xml.json", Empty)], Raise TypeError).
Proof.
  exists "bad.xml", "in/x.xml", "ref/z.xml". split; [reflexivity|]. split; [|exact w_bad]. intros p I; cbn [In] in I; repeat (destruct I as [<-|I]; [eexists; eexists; reflexivity|]); destruct I.
Qed.
Lemma w_broken : w_files "gone.xml" = Raise ValueError /\ w_review (fun l => l) ["in/x.xml"; "gone.xml"] ["ref/z.xml"] before = (before, Raise ValueError).
Proof. vm_compute. split; reflexivity. Qed.
(** ** The review without a reference *)
Definition w_idna (x : N) : cps := if (x <? 3)%N then txt "PVALID" else txt "CONTEXTO".
Lemma w_idna_words : forall x, ~ In 32%N (w_idna x).
Proof. intros x I. unfold w_idna in I. destruct (x <? 3)%N; vm_compute in I; repeat (destruct I as [I|I]; [discriminate I|]); exact I. Qed.
Definition w_read : read_table := mkRead "x.xml" (Some (txt "1")) w_idn.
Definition core_shown (c : res core) : option (header * nat * nat * nat * bool) :=
  match c with Ok k => Some (co_header k, length (fst (fst (co_repertoire k))), snd (fst (co_repertoire k)), snd (co_repertoire k), co_digits k) | Raise _ => None end.
Lemma w_core_review : core_shown (core_review w_worlds w_today w_idna w_read) = Some (mkHeader w_today ("x.xml", Some (txt "1")) None, 5, 2, 3, false)%nat.
Proof. vm_compute. reflexivity. Qed.
Lemma w_core_hypotheses : it_db (rt_table w_read) <> None /\ lgr_reachable (it_lgr (rt_table w_read)) /\ without_sequences (rt_table w_read) /\ (forall l, exists b, wo_test (w_worlds (rt_table w_read)) l = Ok b).
Proof. destruct w_hypotheses as (A & _ & _ & _ & _ & _ & B & C). split; [discriminate|]. split; [exact A|]. split; [exact B|exact C]. Qed.
