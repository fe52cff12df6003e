(** Reading the metadata of a merged set back. *)
From Coq Require Import Permutation.
From Verif Require Import Base BaseFacts CharModel RefModel RefSpec LgrModel LgrSpec UtilsModel MetaModel MetaSpec CompareModel CompareSpec SerialModel SerialSpec SerialFinal.
From Verif Require Import MergeMetaModel MergeMetaSpec MergeMetaProofs MergeMetaOrder.
Open Scope string_scope.
Open Scope list_scope.

Lemma glued_chars : forall sep l s c, glued sep l s -> In c s -> In c sep \/ exists x, In x l /\ In c x.
Proof.
  intros sep l s c H. induction H as [|x|x y l s H IH]; intro Hc; [destruct Hc|right; exists x; split; [left; reflexivity|exact Hc]|].
  apply in_app_or in Hc. destruct Hc as [Hc|Hc]; [right; exists x; split; [left; reflexivity|exact Hc]|].
  apply in_app_or in Hc. destruct Hc as [Hc|Hc]; [left; exact Hc|]. destruct (IH Hc) as [K|[z [K1 K2]]]; [left; exact K|]. right. exists z. split; [right; exact K1|exact K2].
Qed.
Lemma glued_nonempty : forall sep l s, glued sep l s -> l <> [] -> (forall x, In x l -> x <> []) -> s <> [].
Proof.
  intros sep l s H Hl Hx. destruct H as [|x|x y l s H]; [congruence|apply Hx; left; reflexivity|].
  intro E. apply app_eq_nil in E. destruct E as [E _]. apply (Hx x (or_introl eq_refl) E).
Qed.
Section Read.
  Variable lang_check : cps -> option bool.
  Variable dig : N -> bool.
  Hypothesis ascii_digits : forall c, 48 <= c <= 57 -> dig c = true.
  Hypothesis dot : dig 46 = false.

  Lemma default_version : starts_with_version dig (txt "6.3.0").
  Proof.
    exists [54], [51], [48], []. unfold digit_run. split; [|split; [|split; [|reflexivity]]]; (split; [discriminate|]); constructor; try constructor; apply ascii_digits; lia.
  Qed.
  Theorem merged_writable : forall today l, full_date today -> (forall m, In m l -> meta_writable lang_check dig m /\ no_return m) ->
    meta_writable lang_check dig (merge_metadata today l).
  Proof.
    intros today l Ht Hl. split; [|split; [|split; [|split; [|split; [|split]]]]].
    - intros s Hs. injection Hs as <-. exact Ht.
    - intros s Hs. pose proof (start_merged today l) as G. rewrite Hs in G. destruct G as [G _]. apply in_map_iff in G. destruct G as [m [E Hm]].
      destruct (Hl m Hm) as [[_ [W _]] _]. apply W. exact E.
    - intros s Hs. pose proof (end_merged today l) as G. rewrite Hs in G. destruct G as [G _]. apply in_map_iff in G. destruct G as [m [E Hm]].
      destruct (Hl m Hm) as [[_ [_ [W _]]] _]. apply W. exact E.
    - pose proof (unicode_merged today l) as G. destruct (md_unicode (merge_metadata today l)) as [v|]; [|discriminate (G _ (or_introl eq_refl))].
      exists v. split; [reflexivity|]. destruct G as [[G|G] _]; [injection G as <-; exact default_version|]. apply in_map_iff in G. destruct G as [m [E Hm]].
      destruct (Hl m Hm) as [[_ [_ [_ [[w [W1 W2]] _]]]] _]. assert (w = v) by congruence. subst w. exact W2.
    - destruct (languages_merged today l) as [D _]. exact D.
    - intros s Hs. destruct (languages_merged today l) as [_ [I _]]. apply I, in_flat_map in Hs. destruct Hs as [m [Hm Hs]].
      destruct (Hl m Hm) as [[_ [_ [_ [_ [_ [W _]]]]]] _]. apply W. exact Hs.
    - intros d Hd. destruct (description_merged today l) as [d' [E [H1 H2]]]. rewrite Hd in E. injection E as <-.
      assert (HD : forall m e, In (m, e) (descriptions l) -> In m l /\ md_description m = Some e).
      { intros m e He. apply in_flat_map in He. destruct He as [m0 [Hm0 He]]. destruct (md_description m0) as [e0|] eqn:Em; [|destruct He].
        destruct He as [He|[]]. injection He as <- <-. split; assumption. }
      assert (HV : forall m e, In (m, e) (descriptions l) -> ~ In 13 (desc_value e)).
      { intros m e He. destruct (HD m e He) as [Hm Hme]. destruct (Hl m Hm) as [[_ [_ [_ [_ [_ [_ W]]]]]] _]. apply (W e Hme). }
      destruct (forallb (fun p : cps * description => is_html (snd p)) (pairs l)) eqn:F.
      + apply html_iff in F. destruct (H1 F) as [T G]. split; [right; exists (txt "text/html"); split; [exact T|discriminate]|].
        intro K. destruct (glued_chars _ _ _ _ G K) as [[]|[x [K1 K2]]]. apply in_map_iff in K1. destruct K1 as [[m e] [<- K1]]. exact (HV m e K1 K2).
      + assert (N : ~ all_html l) by (intro H; apply html_iff in H; congruence). destruct (H2 N) as [T [ps [Q G]]]. split.
        * left. apply (glued_nonempty _ _ _ G).
          -- intros ->. inversion Q as [E|]. apply N. intros m e Hm He. exfalso.
             assert (K : In (m, e) (descriptions l)) by (apply in_flat_map; exists m; rewrite He; split; [exact Hm|left; reflexivity]). rewrite <- E in K. destruct K.
          -- intros x Hx. clear - Q Hx. induction Q as [|p s ds ps HA Q IH]; [destruct Hx|]. destruct Hx as [<-|Hx]; [|exact (IH Hx)].
             destruct HA as [sc [ty [_ [_ ->]]]]. discriminate.
        * intro K. destruct (glued_chars _ _ _ _ G K) as [K1|[x [K1 K2]]].
          -- cbn in K1. intuition discriminate.
          -- assert (KA : exists p, In p (descriptions l) /\ about p x).
             { clear - Q K1. induction Q as [|p s ds ps HA Q IH]; [destruct K1|]. destruct K1 as [<-|K1]; [exists p; split; [left; reflexivity|exact HA]|].
               destruct (IH K1) as [q [Q1 Q2]]. exists q. split; [right; exact Q1|exact Q2]. }
             destruct KA as [[m e] [Hp [sc [ty [A1 [A2 ->]]]]]]. cbn [fst snd] in *. destruct (HD m e Hp) as [Hm Hme]. destruct (Hl m Hm) as [_ [R1 R2]].
             assert (S1 : ~ In 13 sc).
             { destruct A1 as [[_ ->]|[rest A1]]; [intros []|]. apply R1. rewrite A1. left. reflexivity. }
             assert (S2 : ~ In 13 ty).
             { destruct A2 as [A2|[_ ->]]; [exact (R2 e ty Hme A2)|]. cbn. intuition discriminate. }
             assert (S3 := HV m e Hp).
             destruct K2 as [K2|K2]; [discriminate|].
             repeat (apply in_app_or in K2; destruct K2 as [K2|K2]; [try (cbn in K2; intuition discriminate); tauto|]).
             destruct K2 as [K2|K2]; [discriminate|]. apply in_app_or in K2. destruct K2 as [K2|[K2|[]]]; [tauto|discriminate].
  Qed.
  Theorem merged_read_back : forall today l g, full_date today -> (forall m, In m l -> meta_writable lang_check dig m /\ no_return m) ->
    proper g -> comments_writable (lg_refs g) ->
    exists m rm, process_meta lang_check dig false (serialize_meta (merge_set_metadata today l) (lg_refs g)) = (m, rm, Ok tt) /\
      same_metadata (merge_set_metadata today l) m /\ rm_refs rm = rm_refs (lg_refs g).
  Proof.
    intros today l g Ht Hl Hg Hc. destruct (set_order today l) as [r [[P _] E]]. rewrite E.
    assert (W : meta_writable lang_check dig (merge_metadata today r)).
    { apply merged_writable; [exact Ht|]. intros m Hm. apply Hl. eapply Permutation_in; [apply Permutation_sym; exact P|exact Hm]. }
    destruct (meta_roundtrip lang_check dig dot (merge_metadata today r) g None false W (proper_ref_tidy g Hg) Hc) as [m [rm [E1 [E2 [E3 _]]]]].
    exists m, rm. auto.
  Qed.
End Read.
