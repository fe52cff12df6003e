(** The tables of the merged LGR. *)
From Coq Require Import Ascii.
From Verif Require Import Base BaseFacts ClassModel ClassSpec ClassProofs RuleModel RuleSpec RuleProofs RuleTable MergeModel MergeContext MergeRulesModel MergeRulesSpec MergeRulesLike.
Open Scope string_scope.
Open Scope list_scope.

(** ** Edits *)
Lemma edit_some : forall f s, s <> "" -> edit f (Some s) = Some (f s).
Proof. intros f [|a s] H; [contradiction|reflexivity]. Qed.
Section EditLike.
  Variables Rr Rc Rt : string -> string -> Prop.
  Variables fn fr ft : string -> string.
  Lemma edit_class_like : forall c, (forall b, In b (class_refs c) -> b <> "" /\ Rc b (fr b)) -> (forall t, In t (class_tags c) -> t <> "" /\ Rt t (ft t)) ->
    like_class Rc Rt c (edit_class fn fr ft c).
  Proof.
    apply (cls_induct (fun c => (forall b, In b (class_refs c) -> b <> "" /\ Rc b (fr b)) -> (forall t, In t (class_tags c) -> t <> "" /\ Rt t (ft t)) ->
      like_class Rc Rt c (edit_class fn fr ft c))).
    - intros n b t p l Hb Ht. cbn [edit_class]. constructor.
      + destruct b as [b|]; [|exact I]. destruct (Hb b) as [H1 H2]; [left; reflexivity|]. rewrite (edit_some _ _ H1). exact H2.
      + destruct t as [t|]; [|exact I]. destruct (Ht t) as [H1 H2]; [destruct b; left; reflexivity|]. rewrite (edit_some _ _ H1). exact H2.
    - intros n op ch IH Hb Ht. cbn [edit_class]. constructor. cbn [class_refs class_tags] in *. induction ch as [|x ch IHc]; [constructor|].
      cbn [map]. constructor.
      + apply IH; [left; reflexivity| |]; intros z Hz; [apply Hb|apply Ht]; cbn [flat_map]; apply in_or_app; left; exact Hz.
      + apply IHc; [intros c Hc; apply IH; right; exact Hc| |]; intros z Hz; [apply Hb|apply Ht]; cbn [flat_map]; apply in_or_app; right; exact Hz.
  Qed.
  Let okb := fun b => b <> "" /\ Rr b (fr b) /\ Rc b (fr b).
  Let okt := fun t => t <> "" /\ Rt t (ft t).
  Let P (m : matcher) := (forall b, In b (matcher_refs m) -> okb b) -> (forall c t, In c (classes_of_matcher m) -> In t (class_tags c) -> okt t) ->
    like_matcher Rr Rc Rt m (edit_matcher fn fr ft m).
  Let Q (r : rule) := (forall b, In b (rule_refs r) -> okb b) -> (forall c t, In c (classes_of_rule r) -> In t (class_tags c) -> okt t) ->
    like_rule Rr Rc Rt r (edit_rule fn fr ft r).
  Let L : forall l, Forall P l -> (forall b, In b (flat_map matcher_refs l) -> okb b) -> (forall c t, In c (flat_map classes_of_matcher l) -> In t (class_tags c) -> okt t) ->
    Forall2 (like_matcher Rr Rc Rt) l (map (edit_matcher fn fr ft) l).
  Proof.
    intros l H. induction H as [|x l Hx _ IH]; intros Hb Ht; [constructor|]. cbn [map]. constructor.
    - apply Hx; [intros b B; apply Hb|intros c t C; apply (Ht c t)]; cbn [flat_map]; apply in_or_app; left; assumption.
    - apply IH; [intros b B; apply Hb|intros c t C; apply (Ht c t)]; cbn [flat_map]; apply in_or_app; right; assumption.
  Qed.
  Lemma edit_rule_like : forall r, (forall b, In b (rule_refs r) -> okb b) -> (forall c t, In c (classes_of_rule r) -> In t (class_tags c) -> okt t) ->
    like_rule Rr Rc Rt r (edit_rule fn fr ft r).
  Proof.
    apply (rule_induct P Q); unfold P, Q; intros; cbn [edit_matcher edit_rule]; try (constructor; exact I).
    - constructor. apply edit_class_like; [intros b B; destruct (H b B) as [B1 [_ B2]]; auto|]. intros t T. apply (H0 c t); [left; reflexivity|exact T].
    - constructor. apply L; assumption.
    - constructor. apply L; assumption.
    - constructor. apply L; assumption.
    - constructor. apply H; assumption.
    - cbn [rule_refs] in H0. constructor.
      + destruct b as [b|]; [|exact I]. destruct (H0 b) as [B1 [B2 _]]; [left; reflexivity|]. rewrite (edit_some _ _ B1). exact B2.
      + apply L; [exact H| |exact H1]. intros b0 B. apply H0. apply in_or_app. right. exact B.
  Qed.
End EditLike.

(** ** Tables *)
Lemma ostring_iff : forall a b, ostring_eqb a b = true <-> a = b.
Proof. exact ostring_eqb_eq. Qed.
Lemma class_stored : forall t c, fst (ClassModel.add_class t c true) = match cls_name c with Some n => dset String.eqb n c t | None => t end.
Proof. intros t c. unfold ClassModel.add_class. destruct (validate_class t true c); reflexivity. Qed.
Lemma rule_stored : forall look t r, fst (RuleModel.add_rule look t r true) = match r_name r with Some n => dset String.eqb n r t | None => t end.
Proof. intros look t c. unfold RuleModel.add_rule. destruct (validate_rule look t true c); reflexivity. Qed.

Lemma keys_dget : forall A k (d : dict string A), In k (dkeys d) <-> dget String.eqb k d <> None.
Proof.
  intros A k d. rewrite (dget_None _ string_eqb_iff). split; [auto|]. intro H. destruct (in_dec String.string_dec k (dkeys d)) as [Y|Y]; [exact Y|contradiction].
Qed.
Section Stored.
  Variables (A : Type) (name : A -> option string) (add : dict string A -> A -> dict string A).
  Hypothesis Hadd : forall t a, add t a = match name a with Some n => dset String.eqb n a t | None => t end.
  Lemma stored_none : forall k l t0, (forall a, In a l -> name a <> Some k) -> dget String.eqb k (fold_left add l t0) = dget String.eqb k t0.
  Proof.
    intros k l. induction l as [|a l IH]; intros t0 H; [reflexivity|]. cbn [fold_left]. rewrite IH by (intros; apply H; right; assumption).
    rewrite Hadd. destruct (name a) as [n|] eqn:E; [|reflexivity]. rewrite (dget_dset _ string_eqb_iff). destruct (String.eqb k n) eqn:F; [|reflexivity].
    apply String.eqb_eq in F. exfalso. apply (H a); [left; reflexivity|congruence].
  Qed.
  Lemma stored_kept : forall k a0 l t0, (forall a, In a l -> name a = Some k -> a = a0) -> dget String.eqb k t0 = Some a0 -> dget String.eqb k (fold_left add l t0) = Some a0.
  Proof.
    intros k a0 l. induction l as [|a l IH]; intros t0 H E0; [exact E0|]. cbn [fold_left]. apply IH; [intros; apply H; [right|]; assumption|].
    rewrite Hadd. destruct (name a) as [n|] eqn:E; [|exact E0]. rewrite (dget_dset _ string_eqb_iff). destruct (String.eqb k n) eqn:F; [|exact E0].
    apply String.eqb_eq in F. subst n. f_equal. apply H; [left; reflexivity|exact E].
  Qed.
  Lemma stored_one : forall k a0 l t0, In a0 l -> name a0 = Some k -> (forall a, In a l -> name a = Some k -> a = a0) -> dget String.eqb k (fold_left add l t0) = Some a0.
  Proof.
    intros k a0 l. induction l as [|a l IH]; intros t0 Hi Hn H; [contradiction|]. cbn [fold_left]. destruct Hi as [->|Hi].
    - apply stored_kept; [intros; apply H; [right|]; assumption|]. rewrite Hadd, Hn, (dget_dset _ string_eqb_iff), String.eqb_refl. reflexivity.
    - apply IH; [exact Hi|exact Hn|intros; apply H; [right|]; assumption].
  Qed.
  Lemma stored_keys : forall k l t0, In k (dkeys (fold_left add l t0)) <-> (exists a, In a l /\ name a = Some k) \/ In k (dkeys t0).
  Proof.
    intros k l. induction l as [|a l IH]; intro t0; [cbn; split; [auto|intros [[a [[] _]]|H]; exact H]|]. cbn [fold_left]. rewrite IH, Hadd.
    assert (X : In k (dkeys (match name a with Some n => dset String.eqb n a t0 | None => t0 end)) <-> name a = Some k \/ In k (dkeys t0)).
    { destruct (name a) as [n|]; [|split; [auto|intros [H|H]; [discriminate|exact H]]]. rewrite !keys_dget, (dget_dset _ string_eqb_iff). destruct (String.eqb k n) eqn:F.
      - apply String.eqb_eq in F. subst n. split; [auto|discriminate].
      - split; [auto|]. intros [H|H]; [injection H as ->; rewrite String.eqb_refl in F; discriminate|exact H]. }
    rewrite X. split.
    - intros [[b [B1 B2]]|[H|H]]; [left; exists b; split; [right|]; assumption|left; exists a; split; [left; reflexivity|exact H]|right; exact H].
    - intros [[b [[<-|B1] B2]]|H]; [right; left; exact B2|left; exists b; auto|right; right; exact H].
  Qed.
End Stored.

Definition tag_table (tags : dict string (list N)) : table := fold_left (fun t p => set_tag_class t (fst p) (snd p)) tags [].
Lemma tag_table_other : forall tags t0 k, ~ tag_like k -> dget String.eqb k (fold_left (fun t p => set_tag_class t (fst p) (snd p)) tags t0) = dget String.eqb k t0.
Proof.
  induction tags as [|p tags IH]; intros t0 k H; [reflexivity|]. cbn [fold_left]. rewrite IH by exact H. unfold set_tag_class. rewrite (dget_dset _ string_eqb_iff).
  destruct (String.eqb k (tag_classname (fst p))) eqn:E; [|reflexivity]. apply String.eqb_eq in E. exfalso. apply H. exists (fst p). exact E.
Qed.
Lemma class_none : forall tags l k, ~ tag_like k -> (forall c, In c l -> cls_name c <> Some k) -> dget String.eqb k (class_table tags l) = None.
Proof.
  intros tags l k H1 H2. unfold class_table. rewrite (stored_none _ cls_name _ class_stored) by exact H2. rewrite tag_table_other by exact H1. reflexivity.
Qed.
Lemma class_one : forall tags l k c0, In c0 l -> cls_name c0 = Some k -> (forall c, In c l -> cls_name c = Some k -> c = c0) -> dget String.eqb k (class_table tags l) = Some c0.
Proof. intros tags l k c0 H1 H2 H3. unfold class_table. apply (stored_one _ cls_name _ class_stored); assumption. Qed.
Lemma rule_none : forall look l k, (forall r, In r l -> r_name r <> Some k) -> dget String.eqb k (rule_table look l) = None.
Proof. intros look l k H. unfold rule_table. rewrite (stored_none _ r_name _ (rule_stored look)) by exact H. reflexivity. Qed.
Lemma rule_one : forall look l k r0, In r0 l -> r_name r0 = Some k -> (forall r, In r l -> r_name r = Some k -> r = r0) -> dget String.eqb k (rule_table look l) = Some r0.
Proof. intros look l k c0 H1 H2 H3. unfold rule_table. apply (stored_one _ r_name _ (rule_stored look)); assumption. Qed.
Lemma rule_keys : forall look l k, In k (dkeys (rule_table look l)) <-> exists r, In r l /\ r_name r = Some k.
Proof. intros look l k. unfold rule_table. rewrite (stored_keys _ r_name _ (rule_stored look)). split; [intros [H|[]]; exact H|auto]. Qed.
Lemma class_keys : forall tags l k c, In c l -> cls_name c = Some k -> In k (dkeys (class_table tags l)).
Proof. intros tags l k c H1 H2. unfold class_table. apply (stored_keys _ cls_name _ class_stored). left. exists c. auto. Qed.

(** ** Merging *)
Lemma rules_incl : forall sp s m acc p, In p acc -> In p (merge_rules_xml sp s m acc).
Proof.
  intros sp s m acc p. unfold merge_rules_xml. generalize (dkeys (rule_table [] (sm_rules m))) as ks. intro ks. revert acc. induction ks as [|k ks IH]; intros acc H; [exact H|].
  cbn [fold_left]. apply IH. destruct (truthy sp && negb (ostring_eqb sp (Some k)))%bool; [exact H|]. destruct (first_rule k (sm_rules m)); [|exact H].
  cbv zeta. destruct (memb _ _ _); [exact H|apply in_or_app; left; exact H].
Qed.
Lemma rules_from : forall sp s m acc p, In p (merge_rules_xml sp s m acc) -> In p acc \/ exists n r, (truthy sp = true -> sp = Some n) /\ first_rule n (sm_rules m) = Some r /\ p = rename_rule_xml s n r.
Proof.
  intros sp s m acc p. unfold merge_rules_xml. generalize (dkeys (rule_table [] (sm_rules m))) as ks. intro ks. revert acc. induction ks as [|k ks IH]; intros acc H; [left; exact H|].
  cbn [fold_left] in H. apply IH in H. destruct H as [H|H]; [|right; exact H]. destruct (truthy sp && negb (ostring_eqb sp (Some k)))%bool eqn:E; [left; exact H|].
  destruct (first_rule k (sm_rules m)) as [r|] eqn:F; [|left; exact H]. cbv zeta in H. destruct (memb _ _ _); [left; exact H|]. apply in_app_or in H. destruct H as [H|[<-|[]]]; [left; exact H|].
  right. exists k, r. split; [|auto]. intro T. rewrite T in E. cbn in E. apply Bool.negb_false_iff in E. apply ostring_iff in E. exact E.
Qed.
Lemma rules_all : forall s m acc n r, In n (dkeys (rule_table [] (sm_rules m))) -> first_rule n (sm_rules m) = Some r ->
  In (rename_rule s n) (map fst (merge_rules_xml None s m acc)).
Proof.
  intros s m acc n r H F. unfold merge_rules_xml. revert H. generalize (dkeys (rule_table [] (sm_rules m))) as ks. intro ks.
  assert (K : forall ks acc x, In x (map fst acc) -> In x (map fst (fold_left (fun acc n => if truthy None && negb (ostring_eqb None (Some n)) then acc else match first_rule n (sm_rules m) with
         | None => acc | Some r => let p := rename_rule_xml s n r in if memb String.eqb (fst p) (map fst acc) then acc else acc ++ [p] end) ks acc))).
  { clear. induction ks as [|k ks IH]; intros acc x H; [exact H|]. cbn [fold_left]. apply IH. cbn [truthy andb]. destruct (first_rule k (sm_rules m)); [|exact H].
    cbv zeta. destruct (memb _ _ _); [exact H|]. rewrite map_app. apply in_or_app. left. exact H. }
  revert acc. induction ks as [|k ks IH]; intros acc H; [contradiction|]. cbn [fold_left]. destruct H as [->|H]; [|apply IH; exact H].
  apply K. cbn [truthy andb]. rewrite F. cbv zeta. destruct (memb _ _ _) eqn:E; [apply (memb_In _ _ string_eqb_iff) in E; exact E|]. rewrite map_app. apply in_or_app. right. left. reflexivity.
Qed.
Lemma classes_all : forall m acc p, In p (merge_classes_xml m acc) <-> In p acc \/ exists n c, In n (dkeys (class_table (sm_tags m) (sm_classes m))) /\ first_class n (sm_classes m) = Some c /\ p = rename_class_xml (sm_script m) n c.
Proof.
  intros m acc p. unfold merge_classes_xml. generalize (dkeys (class_table (sm_tags m) (sm_classes m))) as ks. intro ks. revert acc. induction ks as [|k ks IH]; intro acc.
  - cbn. split; [auto|intros [H|[n [c [[] _]]]]; exact H].
  - cbn [fold_left]. rewrite IH. destruct (first_class k (sm_classes m)) as [c|] eqn:F.
    + rewrite in_app_iff. split.
      * intros [[H|[<-|[]]]|[n [d [D1 D2]]]]; [left; exact H|right; exists k, c; split; [left; reflexivity|auto]|right; exists n, d; split; [right; exact D1|exact D2]].
      * intros [H|[n [d [[<-|D1] [D2 D3]]]]]; [left; left; exact H|left; right; left; congruence|right; exists n, d; auto].
    + split; [intros [H|[n [d [D1 D2]]]]; [auto|right; exists n, d; split; [right; exact D1|exact D2]]|intros [H|[n [d [[<-|D1] [D2 D3]]]]]; [auto|congruence|right; exists n, d; auto]].
Qed.

(** Where a rule of the merged LGR comes from. *)
Definition came (m : smember) (p : string * rule) : Prop :=
  exists s n r, (s = sm_script m \/ In (s, n) (sm_asked m)) /\ first_rule n (sm_rules m) = Some r /\ p = rename_rule_xml s n r.
Lemma asked_from : forall m ask acc p, (forall s n, In (s, n) ask -> n <> "") -> In p (fold_left (fun a q => merge_rules_xml (Some (snd q)) (fst q) m a) ask acc) ->
  In p acc \/ exists s n r, In (s, n) ask /\ first_rule n (sm_rules m) = Some r /\ p = rename_rule_xml s n r.
Proof.
  intros m ask. induction ask as [|[s n] ask IH]; intros acc p Hn H; [left; exact H|]. cbn [fold_left] in H. apply IH in H; [|intros a b X; apply (Hn a b); right; exact X].
  destruct H as [H|[a [b [r [X Y]]]]]; [|right; exists a, b, r; split; [right; exact X|exact Y]]. apply rules_from in H. destruct H as [H|[k [r [T [F E]]]]]; [left; exact H|].
  right. exists s, n, r. split; [left; reflexivity|]. cbn [fst snd] in *. assert (K : Some n = Some k) by (apply T; specialize (Hn s n (or_introl eq_refl)); destruct n; [contradiction|reflexivity]).
  injection K as <-. auto.
Qed.
Lemma asked_incl : forall m ask acc p, In p acc -> In p (fold_left (fun a q => merge_rules_xml (Some (snd q)) (fst q) m a) ask acc).
Proof. intros m ask. induction ask as [|q ask IH]; intros acc p H; [exact H|]. cbn [fold_left]. apply IH. apply rules_incl. exact H. Qed.
Lemma member_incl : forall m acc p, In p (fst acc) -> In p (fst (merge_member m acc)).
Proof. intros m acc p H. unfold merge_member. cbn [fst]. apply rules_incl, asked_incl. exact H. Qed.
Lemma members_incl : forall l acc p, In p (fst acc) -> In p (fst (fold_left (fun acc m => merge_member m acc) l acc)).
Proof. induction l as [|m l IH]; intros acc p H; [exact H|]. cbn [fold_left]. apply IH, member_incl. exact H. Qed.
Lemma merged_from : forall l, (forall x s n, In x l -> In (s, n) (sm_asked x) -> n <> "") -> forall p, In p (fst (merge_members l)) -> exists m, In m l /\ came m p.
Proof.
  intros l Ha p. unfold merge_members.
  assert (G : forall acc, In p (fst (fold_left (fun acc m => merge_member m acc) l acc)) -> In p (fst acc) \/ exists m, In m l /\ came m p).
  { induction l as [|m l IH]; intros acc H; [left; exact H|]. cbn [fold_left] in H. apply IH in H; [|intros x s n X; apply (Ha x s n); right; exact X].
    destruct H as [H|[x [X Y]]]; [|right; exists x; split; [right|]; assumption]. unfold merge_member in H. cbn [fst] in H. apply rules_from in H. destruct H as [H|[n [r [_ [F E]]]]].
    - apply asked_from in H; [|intros s n; apply Ha; left; reflexivity]. destruct H as [H|[s [n [r [X [F E]]]]]]; [left; exact H|]. right. exists m. split; [left; reflexivity|]. exists s, n, r. auto.
    - right. exists m. split; [left; reflexivity|]. exists (sm_script m), n, r. auto. }
  intro H. apply G in H. destruct H as [[]|H]. exact H.
Qed.
Lemma merged_has : forall l m n r, In m l -> In n (dkeys (rule_table [] (sm_rules m))) -> first_rule n (sm_rules m) = Some r -> In (rename_rule (sm_script m) n) (map fst (fst (merge_members l))).
Proof.
  intros l m n r Hm Hn F. unfold merge_members. generalize ([] : list (string * rule), [] : list (string * cls)) as acc. induction l as [|x l IH]; intro acc; [contradiction|].
  cbn [fold_left]. destruct Hm as [->|Hm]; [|apply IH; exact Hm]. unfold merge_member at 2. assert (K : In (rename_rule (sm_script m) n) (map fst (fst (merge_member m acc)))) by (unfold merge_member; cbn [fst]; eapply rules_all; eassumption).
  apply in_map_iff in K. destruct K as [p [E K]]. apply in_map_iff. exists p. split; [exact E|]. apply members_incl. exact K.
Qed.
Lemma merged_classes_from : forall l p, In p (snd (merge_members l)) <->
  exists m n c, In m l /\ In n (dkeys (class_table (sm_tags m) (sm_classes m))) /\ first_class n (sm_classes m) = Some c /\ p = rename_class_xml (sm_script m) n c.
Proof.
  intros l p. unfold merge_members.
  assert (G : forall acc, In p (snd (fold_left (fun acc m => merge_member m acc) l acc)) <-> In p (snd acc) \/
    exists m n c, In m l /\ In n (dkeys (class_table (sm_tags m) (sm_classes m))) /\ first_class n (sm_classes m) = Some c /\ p = rename_class_xml (sm_script m) n c).
  { induction l as [|m l IH]; intro acc; [cbn; split; [auto|intros [H|[m [n [c [[] _]]]]]; exact H]|]. cbn [fold_left]. rewrite IH. unfold merge_member. cbn [snd]. rewrite classes_all. split.
    - intros [[H|[n [c X]]]|[x [n [c [X Y]]]]]; [auto|right; exists m, n, c; split; [left; reflexivity|exact X]|right; exists x, n, c; split; [right; exact X|exact Y]].
    - intros [H|[x [n [c [[<-|X] Y]]]]]; [auto|left; right; exists n, c; exact Y|right; exists x, n, c; split; [exact X|exact Y]]. }
  rewrite G. split; [intros [[]|H]; exact H|auto].
Qed.
