(** Proofs about the metadata of a merged set. *)
From Coq Require Import Permutation Sorted.
From Verif Require Import Base BaseFacts UtilsModel UtilsProofs MetaModel MetaSpec CompareModel CompareSpec CompareFinal MergeMetaModel MergeMetaSpec.
Open Scope string_scope.
Open Scope list_scope.

(** ** First occurrences *)
Lemma snoc_split : forall {A} (l a b : list A) (z x : A), l ++ [z] = a ++ x :: b ->
  (b = [] /\ a = l /\ x = z) \/ (exists b', b = b' ++ [z] /\ l = a ++ x :: b').
Proof.
  intros A l a b z x. destruct (exists_last (l := x :: b) ltac:(discriminate)) as [b' [w E]].
  destruct b as [|y b].
  - intro H. apply app_inj_tail in H. destruct H as [-> ->]. left. auto.
  - destruct (exists_last (l := y :: b) ltac:(discriminate)) as [b2 [w2 E2]]. rewrite E2. intro H.
    rewrite app_comm_cons, app_assoc in H. apply app_inj_tail in H. destruct H as [-> ->]. right. exists b2. auto.
Qed.
Lemma met_first_snoc : forall {A} (x y z : A) l, met_first x y (l ++ [z]) <-> met_first x y l \/ (z = x /\ ~ In x l /\ ~ In y l).
Proof.
  intros A x y z l. split.
  - intros [a [b [E [H1 H2]]]]. apply snoc_split in E. destruct E as [[-> [-> ->]]|[b' [-> ->]]]; [right; auto|].
    left. exists a, b'. auto.
  - intros [[a [b [-> [H1 H2]]]]|[-> [H1 H2]]].
    + exists a, (b ++ [z]). rewrite <- app_assoc. auto.
    + exists l, []. auto.
Qed.
Section Keys.
  Variable A : Type.
  Variable eqb : A -> A -> bool.
  Hypothesis eqb_eq : forall a b, eqb a b = true <-> a = b.

  Lemma firsts_snoc : forall l r x, firsts l r -> firsts (l ++ [x]) (add_key eqb r x).
  Proof.
    intros l r x [H1 [H2 H3]]. unfold add_key. destruct (memb eqb x r) eqn:E.
    - apply (memb_In _ _ eqb_eq) in E. split; [exact H1|]. split.
      + intro z. rewrite H2, in_app_iff. cbn [In]. split; [auto|]. intros [H|[<-|[]]]; [exact H|]. apply H2. exact E.
      + intros a b Hab. rewrite met_first_snoc, H3 by exact Hab. split; [auto|]. intros [H|[-> [K _]]]; [exact H|]. exfalso. apply K, H2, E.
    - assert (N : ~ In x r) by (intro H; apply (memb_In _ _ eqb_eq) in H; congruence). split; [|split].
      + apply NoDup_app_iff. split; [exact H1|]. split; [constructor; [intros []|constructor]|]. intros z K [<-|[]]. exact (N K).
      + intro z. rewrite !in_app_iff, H2. reflexivity.
      + intros a b Hab. rewrite !met_first_snoc, H3, !H2 by exact Hab. reflexivity.
  Qed.
  Lemma firsts_nil : firsts (@nil A) [].
  Proof. split; [constructor|]. split; [reflexivity|]. intros x y _. reflexivity. Qed.
  Lemma firsts_keys : forall l, firsts l (add_keys eqb [] l).
  Proof.
    intro l. induction l as [|x l IH] using rev_ind; [exact firsts_nil|].
    unfold add_keys in *. rewrite fold_left_app. cbn [fold_left]. apply firsts_snoc. exact IH.
  Qed.
  Lemma add_keys_app : forall k a b, add_keys eqb k (a ++ b) = add_keys eqb (add_keys eqb k a) b.
  Proof. intros k a b. unfold add_keys. apply fold_left_app. Qed.
End Keys.

(** First occurrences are determined by the list. *)
Lemma firsts_unique : forall {A} (eq_dec : forall a b : A, {a = b} + {a <> b}) l (r r' : list A), firsts l r -> firsts l r' -> r = r'.
Proof.
  intros A eq_dec l r r' H H'. destruct H as [D [I M]]. destruct H' as [D' [I' M']].
  assert (HI : forall x, In x r <-> In x r') by (intro x; rewrite I, I'; reflexivity).
  assert (HM : forall x y, x <> y -> (met_first x y r <-> met_first x y r')) by (intros x y K; rewrite M, M' by exact K; reflexivity).
  clear I I' M M' l. revert r' D' HI HM. induction r as [|x r IH]; intros r' D' HI HM.
  - destruct r' as [|y r']; [reflexivity|]. destruct (proj2 (HI y) (or_introl eq_refl)).
  - destruct r' as [|y r']; [destruct (proj1 (HI x) (or_introl eq_refl))|].
    assert (E : x = y).
    { destruct (eq_dec x y) as [E|E]; [exact E|]. exfalso.
      assert (K : met_first x y (x :: r)) by (exists [], r; auto). apply (HM x y E) in K. destruct K as [a [b [K1 [K2 K3]]]].
      destruct a as [|c a]; [injection K1 as K1 K1'; congruence|]. injection K1 as K1 K1'. apply K3. left. congruence. }
    subst y. f_equal. inversion D as [|? ? N1 D1]; subst. inversion D' as [|? ? N2 D2]; subst. apply IH; [exact D1|exact D2| |].
    + intro z. specialize (HI z). cbn [In] in HI. destruct (eq_dec x z) as [<-|E]; [tauto|]. split; intro H; [destruct (proj1 HI (or_intror H))|destruct (proj2 HI (or_intror H))]; tauto.
    + assert (Hskip : forall w u v, u <> v -> ~ In x w -> u <> x -> v <> x -> (met_first u v (x :: w) <-> met_first u v w)).
      { intros w u v Huv Hw Hu Hv. split.
        - intros [a [b [E1 [E2 E3]]]]. destruct a as [|c a]; [injection E1 as E1 _; congruence|]. injection E1 as E1 E1'. exists a, b.
          split; [exact E1'|]. split; intro; [apply E2|apply E3]; right; assumption.
        - intros [a [b [-> [E2 E3]]]]. exists (x :: a), b. split; [reflexivity|]. split; cbn [In]; intros [K|K]; congruence || tauto. }
      intros u v Huv. destruct (eq_dec u x) as [->|Hu].
      * split; intros [a [b [-> _]]]; exfalso; [apply N1|apply N2]; apply in_or_app; right; left; reflexivity.
      * destruct (eq_dec v x) as [->|Hv].
        -- assert (Q : forall w, ~ In x w -> (met_first u x w <-> In u w)).
           { intros w Hw. split; [intros [a [b [-> _]]]; apply in_or_app; right; left; reflexivity|].
             intro K. clear - K Hw eq_dec. induction w as [|c w IHw]; [destruct K|]. destruct (eq_dec c u) as [->|Hc].
             - exists [], w. auto.
             - destruct K as [K|K]; [congruence|]. destruct IHw as [a [b [-> [K1 K2]]]]; [intro; apply Hw; right; assumption|exact K|].
               exists (c :: a), b. split; [reflexivity|]. split; cbn [In]; intros [Q|Q]; try tauto; apply Hw; left; congruence. }
           rewrite !Q by assumption. specialize (HI u). cbn [In] in HI. split; intro K; [destruct (proj1 HI (or_intror K))|destruct (proj2 HI (or_intror K))]; congruence || assumption.
        -- rewrite <- (Hskip r), <- (Hskip r') by assumption. apply HM. exact Huv.
Qed.

Lemma scope_eqb_eq : forall a b, scope_eqb a b = true <-> a = b.
Proof.
  intros [v t] [v' t']. unfold scope_eqb, otext_eqb. cbn [sc_value sc_type]. rewrite andb_true_iff, cps_eqb_eq. split.
  - intros [-> H]. destruct t, t'; try discriminate; [apply cps_eqb_eq in H; subst|]; reflexivity.
  - intro H. injection H as -> ->. split; [reflexivity|]. destruct t'; [apply cps_eqb_refl|reflexivity].
Qed.

(** ** Joined texts *)
Lemma glued_join : forall sep l, glued sep l (join sep l).
Proof.
  intros sep l. induction l as [|x [|y l] IH]; [constructor|constructor|]. change (join sep (x :: y :: l)) with (x ++ sep ++ join sep (y :: l)).
  constructor. exact IH.
Qed.
Lemma glued_unique : forall sep l s s', glued sep l s -> glued sep l s' -> s = s'.
Proof.
  intros sep l s s' H. revert s'. induction H as [|x|x y l s H IH]; intros s' K; inversion K; subst; try reflexivity. f_equal. f_equal. apply IH. assumption.
Qed.
Lemma occurs_glued : forall sep l s, glued sep l s -> forall x, In x l -> occurs_in x s.
Proof.
  intros sep l s H. induction H as [|x|x y l s H IH]; intros z Hz.
  - destruct Hz.
  - destruct Hz as [<-|[]]. exists [], []. rewrite app_nil_r. reflexivity.
  - destruct Hz as [<-|Hz]; [exists [], (sep ++ s); reflexivity|]. destruct (IH z Hz) as [a [b ->]]. exists (x ++ sep ++ a), b. rewrite <- !app_assoc. reflexivity.
Qed.
Lemma occurs_trans : forall a b c, occurs_in a b -> occurs_in b c -> occurs_in a c.
Proof. intros a b c [x [y ->]] [z [w ->]]. exists (z ++ x), (y ++ w). rewrite <- !app_assoc. reflexivity. Qed.

(** ** Versions *)
Lemma merge_versions_keys : forall l vs cs, merge_versions vs cs l = (add_keys cps_eqb vs (version_values l), add_keys cps_eqb cs (version_comments l)).
Proof.
  intro l. induction l as [|m l IH]; intros vs cs; [reflexivity|]. cbn [merge_versions version_values version_comments flat_map].
  destruct (md_version m) as [[v c]|]; [|apply IH]. cbn [ver_value ver_comment]. rewrite IH, !add_keys_app. f_equal.
  - destruct v as [|a v]; reflexivity.
  - destruct c as [[|a c]|]; reflexivity.
Qed.
Theorem version_merged : forall today l, exists vs cs v c,
  md_version (merge_metadata today l) = Some (mkVersion v (Some c)) /\
  firsts (version_values l) vs /\ glued [124] vs v /\ firsts (version_comments l) cs /\ glued [124] cs c.
Proof.
  intros today l. exists (add_keys cps_eqb [] (version_values l)), (add_keys cps_eqb [] (version_comments l)). eexists. eexists.
  unfold merge_metadata. cbn [md_version]. unfold merge_version. rewrite merge_versions_keys.
  split; [reflexivity|]. split; [apply firsts_keys; exact cps_eqb_eq|]. split; [apply glued_join|]. split; [apply firsts_keys; exact cps_eqb_eq|apply glued_join].
Qed.

(** ** Languages, scopes and dates *)
Lemma fold_one : forall {A} (f : metadata -> A) (g : A -> metadata -> A) (Hf : forall o m, f (merge_one o m) = g (f o) m) l o,
  f (fold_left merge_one l o) = fold_left g l (f o).
Proof. intros A f g Hf l. induction l as [|m l IH]; intro o; [reflexivity|]. cbn [fold_left]. rewrite IH, Hf. reflexivity. Qed.
Lemma fold_keys : forall {A} eqb (f : metadata -> list A) l k, fold_left (fun k m => add_keys eqb k (f m)) l k = add_keys eqb k (flat_map f l).
Proof. intros A eqb f l. induction l as [|m l IH]; intro k; [reflexivity|]. cbn [fold_left flat_map]. rewrite IH, add_keys_app. reflexivity. Qed.
Theorem languages_merged : forall today l, firsts (flat_map md_languages l) (md_languages (merge_metadata today l)).
Proof.
  intros today l. unfold merge_metadata. cbn [md_languages].
  rewrite (fold_one md_languages (fun k m => add_keys cps_eqb k (md_languages m)) (fun o m => eq_refl)), fold_keys. apply firsts_keys. exact cps_eqb_eq.
Qed.
Theorem scopes_merged : forall today l, firsts (flat_map md_scopes l) (md_scopes (merge_metadata today l)).
Proof.
  intros today l. unfold merge_metadata. cbn [md_scopes].
  rewrite (fold_one md_scopes (fun k m => add_keys scope_eqb k (md_scopes m)) (fun o m => eq_refl)), fold_keys. apply firsts_keys. exact scope_eqb_eq.
Qed.

Lemma not_after_trans : forall a b c, not_after a b -> not_after b c -> not_after a c.
Proof. unfold not_after, text_gtb. intros a b c H1 H2. apply negb_false_iff in H1, H2. apply negb_false_iff. eapply cps_leb_trans; eassumption. Qed.
Lemma not_after_antisym : forall a b, not_after a b -> not_after b a -> a = b.
Proof. unfold not_after, text_gtb. intros a b H1 H2. apply negb_false_iff in H1, H2. apply cps_leb_antisym; assumption. Qed.
Lemma greatest_snoc : forall l r o, greatest l r -> greatest (l ++ [o]) (compare_objects text_max r o).
Proof.
  intros l [z|] o H; cbn [greatest] in H.
  - destruct H as [H1 H2]. destruct o as [w|]; cbn [compare_objects greatest].
    + pose proof (latest_ok (Some z) (Some w)) as L. cbn [latest compare_objects] in L. destruct L as [t [L1 [L2 [L3 L4]]]]. injection L1 as <-.
      split; [apply in_or_app; destruct L2 as [-> | ->]; [left; exact H1|right; left; reflexivity]|].
      intros x Hx. apply in_app_or in Hx. destruct Hx as [Hx|[Hx|[]]]; [eapply not_after_trans; [apply H2; exact Hx|exact L3]|]. injection Hx as <-. exact L4.
    + split; [apply in_or_app; left; exact H1|]. intros x Hx. apply in_app_or in Hx. destruct Hx as [Hx|[Hx|[]]]; [auto|discriminate].
  - destruct o as [w|]; cbn [compare_objects greatest].
    + split; [apply in_or_app; right; left; reflexivity|]. intros x Hx. apply in_app_or in Hx. destruct Hx as [Hx|[Hx|[]]]; [discriminate (H _ Hx)|].
      injection Hx as <-. apply not_after_refl.
    + intros o Ho. apply in_app_or in Ho. destruct Ho as [Ho|[<-|[]]]; auto.
Qed.
Lemma least_snoc : forall l r o, least l r -> least (l ++ [o]) (compare_objects text_min r o).
Proof.
  intros l [z|] o H; cbn [least] in H.
  - destruct H as [H1 H2]. destruct o as [w|]; cbn [compare_objects least].
    + pose proof (earliest_ok (Some z) (Some w)) as L. cbn [earliest compare_objects] in L. destruct L as [t [L1 [L2 [L3 L4]]]]. injection L1 as <-.
      split; [apply in_or_app; destruct L2 as [-> | ->]; [left; exact H1|right; left; reflexivity]|].
      intros x Hx. apply in_app_or in Hx. destruct Hx as [Hx|[Hx|[]]]; [eapply not_after_trans; [exact L3|apply H2; exact Hx]|]. injection Hx as <-. exact L4.
    + split; [apply in_or_app; left; exact H1|]. intros x Hx. apply in_app_or in Hx. destruct Hx as [Hx|[Hx|[]]]; [auto|discriminate].
  - destruct o as [w|]; cbn [compare_objects least].
    + split; [apply in_or_app; right; left; reflexivity|]. intros x Hx. apply in_app_or in Hx. destruct Hx as [Hx|[Hx|[]]]; [discriminate (H _ Hx)|].
      injection Hx as <-. apply not_after_refl.
    + intros o Ho. apply in_app_or in Ho. destruct Ho as [Ho|[<-|[]]]; auto.
Qed.
Lemma greatest_fold : forall (f : metadata -> option cps) l k r, greatest k r -> greatest (k ++ map f l) (fold_left (fun o m => compare_objects text_max o (f m)) l r).
Proof.
  intros f l. induction l as [|m l IH]; intros k r H; cbn [map fold_left]; [rewrite app_nil_r; exact H|].
  replace (k ++ f m :: map f l) with ((k ++ [f m]) ++ map f l) by (rewrite <- app_assoc; reflexivity). apply IH. apply greatest_snoc. exact H.
Qed.
Lemma least_fold : forall (f : metadata -> option cps) l k r, least k r -> least (k ++ map f l) (fold_left (fun o m => compare_objects text_min o (f m)) l r).
Proof.
  intros f l. induction l as [|m l IH]; intros k r H; cbn [map fold_left]; [rewrite app_nil_r; exact H|].
  replace (k ++ f m :: map f l) with ((k ++ [f m]) ++ map f l) by (rewrite <- app_assoc; reflexivity). apply IH. apply least_snoc. exact H.
Qed.
Theorem start_merged : forall today l, greatest (map md_start l) (md_start (merge_metadata today l)).
Proof.
  intros today l. unfold merge_metadata. cbn [md_start]. rewrite (fold_one md_start (fun o m => compare_objects text_max o (md_start m)) (fun o m => eq_refl)).
  apply (greatest_fold md_start l []). intros o [].
Qed.
Theorem end_merged : forall today l, least (map md_end l) (md_end (merge_metadata today l)).
Proof.
  intros today l. unfold merge_metadata. cbn [md_end]. rewrite (fold_one md_end (fun o m => compare_objects text_min o (md_end m)) (fun o m => eq_refl)).
  apply (least_fold md_end l []). intros o [].
Qed.
Theorem unicode_merged : forall today l, greatest (Some (txt "6.3.0") :: map md_unicode l) (md_unicode (merge_metadata today l)).
Proof.
  intros today l. unfold merge_metadata. cbn [md_unicode]. rewrite (fold_one md_unicode (fun o m => compare_objects text_max o (md_unicode m)) (fun o m => eq_refl)).
  apply (greatest_fold md_unicode l [Some (txt "6.3.0")]). cbn. split; [auto|]. intros x [Hx|[]]. injection Hx as <-. reflexivity.
Qed.
Theorem rest_merged : forall today l, md_date (merge_metadata today l) = Some today /\ md_checks (merge_metadata today l) = [].
Proof.
  intros today l. split; [reflexivity|]. unfold merge_metadata. cbn [md_checks]. rewrite (fold_one md_checks (fun o _ => o) (fun o m => eq_refl)).
  induction l as [|m l IH]; [reflexivity|exact IH].
Qed.
Lemma greatest_unique : forall l l' r r', (forall o, In o l <-> In o l') -> greatest l r -> greatest l' r' -> r = r'.
Proof.
  intros l l' [z|] [z'|] HI H H'; cbn [greatest] in *; try reflexivity.
  - destruct H as [H1 H2]. destruct H' as [H1' H2']. f_equal. apply not_after_antisym; [apply H2', HI, H1|apply H2, HI, H1'].
  - destruct H as [H _]. apply HI, H' in H. discriminate.
  - destruct H' as [H1 _]. apply HI, H in H1. discriminate.
Qed.
Lemma least_unique : forall l l' r r', (forall o, In o l <-> In o l') -> least l r -> least l' r' -> r = r'.
Proof.
  intros l l' [z|] [z'|] HI H H'; cbn [least] in *; try reflexivity.
  - destruct H as [H1 H2]. destruct H' as [H1' H2']. f_equal. apply not_after_antisym; [apply H2, HI, H1'|apply H2', HI, H1].
  - destruct H as [H _]. apply HI, H' in H. discriminate.
  - destruct H' as [H1 _]. apply HI, H in H1. discriminate.
Qed.

(** ** Descriptions *)
Definition pairs (l : list metadata) : list (cps * description) :=
  flat_map (fun m => match md_description m with Some d => [(meta_script m, d)] | None => [] end) l.
Lemma pairs_descriptions : forall l, pairs l = map (fun p => (meta_script (fst p), snd p)) (descriptions l).
Proof.
  intro l. unfold pairs, descriptions. induction l as [|m l IH]; [reflexivity|]. cbn [flat_map]. rewrite map_app, IH. destruct (md_description m); reflexivity.
Qed.
Lemma is_html_iff : forall d, is_html d = true <-> desc_type d = Some (txt "text/html").
Proof.
  intro d. unfold is_html. destruct (desc_type d) as [t|]; [|split; discriminate]. rewrite cps_eqb_eq. split; [intros ->; reflexivity|intro H; injection H as ->; reflexivity].
Qed.
Lemma html_iff : forall l, forallb (fun p : cps * description => is_html (snd p)) (pairs l) = true <-> all_html l.
Proof.
  intro l. rewrite forallb_forall. unfold pairs, all_html. split.
  - intros H m d Hm Hd. apply is_html_iff. apply (H (meta_script m, d)). apply in_flat_map. exists m. rewrite Hd. split; [exact Hm|left; reflexivity].
  - intros H p Hp. apply in_flat_map in Hp. destruct Hp as [m [Hm Hp]]. destruct (md_description m) as [d|] eqn:E; [|destruct Hp].
    destruct Hp as [<-|[]]. apply is_html_iff. exact (H m d Hm E).
Qed.
Lemma described_about : forall p, about p (described (meta_script (fst p), snd p)).
Proof.
  intros [m d]. exists (meta_script m), (shown_type d). cbn [fst snd]. unfold meta_script, shown_type. split; [|split].
  - destruct (md_languages m) as [|s r]; [left; auto|right; exists r; reflexivity].
  - destruct (desc_type d) as [t|]; auto.
  - reflexivity.
Qed.
Theorem description_merged : forall today l, exists d, md_description (merge_metadata today l) = Some d /\
  (all_html l -> desc_type d = Some (txt "text/html") /\ glued [] (map (fun p => desc_value (snd p)) (descriptions l)) (desc_value d)) /\
  (~ all_html l -> desc_type d = Some (txt "text/plain") /\
     exists ps, Forall2 about (descriptions l) ps /\ glued (txt "----" ++ [10]) ps (desc_value d)).
Proof.
  intros today l. exists (merge_description l). split; [reflexivity|]. unfold merge_description. fold (pairs l).
  destruct (forallb (fun p : cps * description => is_html (snd p)) (pairs l)) eqn:E.
  - apply html_iff in E. split; [|intro H; contradiction]. intros _. split; [reflexivity|]. cbn [desc_value].
    replace (map (fun p => desc_value (snd p)) (descriptions l)) with (map (fun p => desc_value (snd p)) (pairs l)); [apply glued_join|].
    rewrite pairs_descriptions, map_map. reflexivity.
  - assert (N : ~ all_html l) by (intro H; apply html_iff in H; congruence). split; [intro H; contradiction|]. intros _. split; [reflexivity|].
    exists (map described (pairs l)). split; [|apply glued_join]. rewrite pairs_descriptions, map_map.
    generalize (descriptions l). intro ds. induction ds as [|p ds IH]; constructor; [apply described_about|exact IH].
Qed.
Lemma about_value : forall p s, about p s -> occurs_in (desc_value (snd p)) s.
Proof.
  intros p s [script [ty [_ [_ ->]]]]. exists (10 :: txt "Script: '" ++ script ++ txt "' - MIME-type: '" ++ ty ++ txt "':" ++ [10]), [10].
  rewrite <- app_comm_cons, <- !app_assoc. reflexivity.
Qed.
Theorem description_kept : forall today l m d, In m l -> md_description m = Some d ->
  exists d', md_description (merge_metadata today l) = Some d' /\ occurs_in (desc_value d) (desc_value d').
Proof.
  intros today l m d Hm Hd. destruct (description_merged today l) as [d' [E [H1 H2]]]. exists d'. split; [exact E|].
  assert (Hp : In (m, d) (descriptions l)) by (apply in_flat_map; exists m; rewrite Hd; split; [exact Hm|left; reflexivity]).
  destruct (forallb (fun p : cps * description => is_html (snd p)) (pairs l)) eqn:F.
  - apply html_iff in F. destruct (H1 F) as [_ G]. apply (occurs_glued _ _ _ G). apply in_map_iff. exists (m, d). auto.
  - assert (N : ~ all_html l) by (intro H; apply html_iff in H; congruence). destruct (H2 N) as [_ [ps [Q G]]].
    clear - Hp Q G. assert (K : exists s, In s ps /\ about (m, d) s).
    { clear G. induction Q as [|p s ds ps HQ Q IH]; [destruct Hp|]. destruct Hp as [->|Hp]; [exists s; split; [left; reflexivity|exact HQ]|].
      destruct (IH Hp) as [t [T1 T2]]. exists t. split; [right; exact T1|exact T2]. }
    destruct K as [s [K1 K2]]. eapply occurs_trans; [apply (about_value _ _ K2)|]. apply (occurs_glued _ _ _ G). exact K1.
Qed.
