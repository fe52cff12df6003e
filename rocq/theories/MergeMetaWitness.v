(** Samples for the metadata of merged sets. *)
From Coq Require Import Permutation.
From Verif Require Import Base BaseFacts CharModel LgrModel UtilsModel MetaModel MetaSpec CompareModel CompareSpec SerialModel SerialSpec SerialWitness.
From Verif Require Import MergeMetaModel MergeMetaSpec MergeMetaProofs MergeMetaOrder.
Open Scope string_scope.
Open Scope list_scope.

Definition today : cps := txt "2026-11-17".
Definition with_version (v : string) (m : metadata) : metadata :=
  mkMeta (Some (mkVersion (txt v) None)) (md_date m) (md_languages m) (md_scopes m) (md_start m) (md_end m) (md_unicode m) (md_description m) (md_checks m).
Definition of_script (s : string) (period : option string * option string) (u : string) (d : option description) : metadata :=
  mkMeta (Some (mkVersion (txt "1") (Some (txt s)))) (Some (txt "2020-02-03")) [txt s; txt "mul"] [mkScope (txt ".") (Some (txt "domain"))]
         (option_map txt (fst period)) (option_map txt (snd period)) (Some (txt u)) d [].
Definition m_und : metadata := of_script "und-Arab" (Some "2020-01-01", None) "6.3.0" (Some (mkDesc (txt "abjad") (Some (txt "text/html")))).
Definition m_fr : metadata := of_script "fr" (Some "2021-01-01", Some "2030-01-01") "7.0.0" (Some (mkDesc (txt "alphabet") None)).
Definition m_uk : metadata := with_version "2" (of_script "uk" (None, Some "2029-01-01") "6.2.0" None).
Definition sample : list metadata := [m_und; m_uk; m_fr].

Lemma sample_distinct : forall a m1 b m2 c k, sample = a ++ m1 :: b ++ m2 :: c -> sorts_as m1 k -> sorts_as m2 k -> False.
Proof.
  intros a m1 b m2 c k E H1 H2. apply sorts_as_iff in H1, H2.
  assert (D : NoDup (map key sample)).
  { assert (D : forallb (fun p => negb (cps_eqb (fst p) (snd p))) [(key m_und, key m_uk); (key m_und, key m_fr); (key m_uk, key m_fr)] = true) by (vm_compute; reflexivity).
    rewrite forallb_forall in D.
    assert (D1 : key m_und <> key m_uk) by (apply cps_eqb_neq; apply negb_true_iff; exact (D (key m_und, key m_uk) ltac:(cbn; auto))).
    assert (D2 : key m_und <> key m_fr) by (apply cps_eqb_neq; apply negb_true_iff; exact (D (key m_und, key m_fr) ltac:(cbn; auto))).
    assert (D3 : key m_uk <> key m_fr) by (apply cps_eqb_neq; apply negb_true_iff; exact (D (key m_uk, key m_fr) ltac:(cbn; auto))).
    unfold sample. cbn [map]. repeat constructor; cbn [In]; intuition congruence. }
  rewrite E in D. rewrite map_app in D. cbn [map] in D. apply NoDup_app_iff in D. destruct D as [_ [D _]]. inversion D as [|? ? N _]; subst.
  apply N. rewrite map_app. apply in_or_app. right. left. congruence.
Qed.

Lemma older_unicode : exists l, (forall m, In m l -> md_unicode m = Some (txt "11.0.0")) /\ l <> [] /\
  md_unicode (merge_set_metadata today l) = Some (txt "6.3.0").
Proof.
  exists [of_script "fr" (None, None) "11.0.0" None; of_script "uk" (None, None) "11.0.0" None].
  split; [|split; [discriminate|vm_compute; reflexivity]]. intros m [<-|[<-|[]]]; reflexivity.
Qed.
Lemma order_counts : exists l l', Permutation l l' /\ merge_set_metadata today l <> merge_set_metadata today l'.
Proof.
  exists [m_fr; with_version "2" m_fr], [with_version "2" m_fr; m_fr]. split; [constructor|]. intro H. apply (f_equal md_version) in H. revert H. vm_compute. discriminate.
Qed.
Lemma versions_confused : exists l l', version_values l <> version_values l' /\
  md_version (merge_set_metadata today l) = md_version (merge_set_metadata today l').
Proof.
  exists [with_version "1" m_fr; with_version "2" m_uk], [with_version "1|2" m_fr]. split; [vm_compute; discriminate|vm_compute; reflexivity].
Qed.
Lemma nothing_said : exists l, l <> [] /\ (forall m, In m l -> md_version m = None /\ md_description m = None) /\
  md_version (merge_set_metadata today l) = Some (mkVersion [] (Some [])) /\
  md_description (merge_set_metadata today l) = Some (mkDesc [] (Some (txt "text/html"))).
Proof.
  exists [new_metadata]. split; [discriminate|]. split; [intros m [<-|[]]; split; reflexivity|]. split; vm_compute; reflexivity.
Qed.
Lemma no_period : exists l s e, (forall m, In m l -> exists a b, md_start m = Some a /\ md_end m = Some b /\ not_after a b) /\
  md_start (merge_set_metadata today l) = Some s /\ md_end (merge_set_metadata today l) = Some e /\ ~ not_after s e.
Proof.
  exists [of_script "fr" (Some "2020-01-01", Some "2020-12-31") "6.3.0" None; of_script "uk" (Some "2021-01-01", Some "2021-12-31") "6.3.0" None].
  eexists. eexists. split; [|split; [vm_compute; reflexivity|split; [vm_compute; reflexivity|vm_compute; discriminate]]].
  intros m [<-|[<-|[]]]; eexists; eexists; (split; [reflexivity|]); (split; [reflexivity|]); vm_compute; reflexivity.
Qed.

(** A member that can be written. *)
Lemma s_meta_writable : meta_writable every_lang ascii_digit s_meta.
Proof.
  split; [intros s H; injection H as H; subst s; exists (mkDay 2020 2 3); split; [split; [cbn [d_year]; lia|cbn [d_year d_month d_day]; apply Day_feb; lia]|reflexivity]|].
  split; [intros s H; injection H as H; subst s; exists (mkDay 2021 1 1); split; [split; [cbn [d_year]; lia|cbn [d_year d_month d_day]; apply Day_31; [left; reflexivity|lia]]|reflexivity]|].
  split; [intros s H; discriminate|]. split.
  - eexists. split; [reflexivity|]. exists [54], [51], [48], []. unfold digit_run. repeat split; try discriminate; repeat constructor.
  - split; [cbn; repeat constructor; cbn; intuition discriminate|]. split; [reflexivity|].
    intros d Hd. injection Hd as Hd. subst d. cbn. split; [left; discriminate|]. intuition discriminate.
Qed.
Lemma sample_writable : forall m, In m [s_meta] -> meta_writable every_lang ascii_digit m /\ no_return m.
Proof.
  intros m [<-|[]]. split; [exact s_meta_writable|]. split.
  - intros s Hs. cbn in Hs. destruct Hs as [<-|[<-|[]]]; cbn; intuition discriminate.
  - intros d t Hd. injection Hd as <-. cbn [desc_type]. intros Ht. discriminate Ht.
Qed.
