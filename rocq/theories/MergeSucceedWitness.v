From Coq Require Import Permutation.
From Verif Require Import Base BaseFacts CharModel RepSpec RepProofs VariantProofs IterProofs RefModel RefSpec ActionModel LgrModel LgrSpec LgrProofs LgrReach.
From Verif Require Import ValidateModel ValidateSpec ValidateProofs ValidateFinal SerialSpec SerialFinal LgrInv LgrFinal CompareSpec CompareWitness SerialWitness.
From Verif Require Import MergeModel MergeSpec MergeRefs MergeFold MergeFinal MergeWitness MergeSucceedSpec MergeSucceed.
Open Scope string_scope.
Open Scope N_scope.
Open Scope list_scope.

(** ** Checks *)
Lemma proper_of : forall ops, each_stepb tidy_opb (new_lgr None true) ops = true -> forallb unforcedb ops = true -> proper (lgr_of ops).
Proof.
  intros ops H1 H2. apply proper_run; [apply pr_new|apply (each_stepb_sound _ _ tidy_opb_sound); exact H1|].
  rewrite forallb_forall in H2. intros o Ho. apply unforcedb_sound. apply H2. exact Ho.
Qed.
Definition silentb (ch : char) : bool :=
  match ch_when ch, ch_not_when ch, get_variants ch with None, None, [] => true | _, _, _ => false end.
Lemma silentb_sound : forall ch, silentb ch = true -> silent ch.
Proof. intros ch H. unfold silentb in H. unfold silent. destruct (ch_when ch), (ch_not_when ch), (get_variants ch); try discriminate. auto. Qed.
Definition onceb (m : member) : bool := negb (has_dup (map (fun kv => ref_value (snd kv)) (rm_refs (lg_refs (mb_lgr m))))).
Lemma onceb_sound : forall m, onceb m = true -> texts_once m.
Proof.
  intros m H. unfold onceb in H. apply negb_true_iff in H. apply has_dup_false in H. intros i1 i2 t H1 H2. unfold text_in in *.
  destruct (dget String.eqb i1 _) as [r1|] eqn:E1; [|discriminate]. destruct (dget String.eqb i2 _) as [r2|] eqn:E2; [|discriminate].
  cbn in H1, H2. injection H1 as H1. injection H2 as H2. apply (dget_In _ string_eqb_iff) in E1. apply (dget_In _ string_eqb_iff) in E2.
  assert (X : (i1, r1) = (i2, r2)); [|congruence]. revert E1 E2 H. generalize (rm_refs (lg_refs (mb_lgr m))) as d. clear - H1 H2.
  induction d as [|kv d IH]; intros A B N; [destruct A|]. cbn in N. inversion N as [|? ? N1 N2]; subst.
  destruct A as [->|A], B as [B|B].
  - exact B.
  - exfalso. apply N1. apply in_map_iff. exists (i2, r2). cbn. split; [congruence|exact B].
  - subst kv. exfalso. apply N1. apply in_map_iff. exists (i1, r1). cbn. split; [congruence|exact A].
  - auto.
Qed.
Definition named_rule (o : option string) : bool := match o with Some "" => false | _ => true end.
Definition namedb (m : member) : bool :=
  forallb (fun ch => forallb (fun v => named_rule (v_when v) && named_rule (v_not_when v))%bool (get_variants ch)) (all_chars (lg_rep (mb_lgr m))).
Lemma namedb_sound : forall m, lgr_reachable (mb_lgr m) -> namedb m = true -> contexts_named m.
Proof.
  intros m R H a b v M. pose proof (lgr_reachable_wf _ R) as W. apply mapping_lk in M. destruct M as [ch [M1 [M2 _]]].
  unfold namedb in H. rewrite forallb_forall in H. specialize (H ch (lk_in_all _ _ _ W M1)). rewrite forallb_forall in H. specialize (H v M2).
  apply andb_true_iff in H. destruct H as [H1 H2]. split; intro X; rewrite X in *; discriminate.
Qed.
Definition quiet_pair (a b : member) : bool :=
  forallb (fun ch => silentb ch || match lk (lg_rep (mb_lgr b)) (ch_cp ch) with Some x => silentb x | None => true end)%bool (all_chars (lg_rep (mb_lgr a))).
Definition quiet (a b : member) : Prop := forall c, has_cp a c -> has_cp b c -> nothing_said a c \/ nothing_said b c.
Lemma quiet_pair_sound : forall a b, lgr_reachable (mb_lgr a) -> quiet_pair a b = true -> quiet a b.
Proof.
  intros a b R H c Ha Hb. pose proof (lgr_reachable_wf _ R) as W. unfold has_cp in *. rewrite lookup_lk in *.
  destruct (lk (lg_rep (mb_lgr a)) c) as [ch|] eqn:Ea; [|congruence]. destruct (lk (lg_rep (mb_lgr b)) c) as [x|] eqn:Eb; [|congruence].
  unfold quiet_pair in H. rewrite forallb_forall in H. specialize (H ch (lk_in_all _ _ _ W Ea)). rewrite (lk_cp _ _ _ Ea), Eb in H. apply orb_true_iff in H.
  destruct H as [H|H]; apply silentb_sound in H; [left; apply (said_silent a c ch Ea)|right; apply (said_silent b c x Eb)]; exact H.
Qed.
Lemma pairs_perm : forall A (R : A -> A -> Prop) l l', (forall a b, R a b -> R b a) -> Permutation l l' -> ForallOrdPairs R l -> ForallOrdPairs R l'.
Proof.
  intros A R l l' Sy P. induction P as [|x l l' P IH|x y l|l l' l'' P1 IH1 P2 IH2]; intro H; auto.
  - inversion H; subst. constructor; auto. rewrite Forall_forall in *. intros z Hz. match goal with X : forall x, In x l -> _ |- _ => apply X end. eapply Permutation_in; [apply Permutation_sym; exact P|exact Hz].
  - inversion H as [|? ? H1 H2]; subst. inversion H2 as [|? ? H3 H4]; subst. inversion H1 as [|? ? H5 H6]; subst. constructor; [constructor; auto|constructor; auto].
Qed.
Lemma quiet_speaks : forall l, ForallOrdPairs quiet l -> one_speaks l.
Proof.
  intros l H c m1 m2 rest P H1 H2. apply (pairs_perm _ quiet l _) in P; auto.
  - inversion P as [|? ? Q _]; subst. inversion Q as [|? ? Q1 _]; subst. apply Q1; assumption.
  - intros a b X d Da Db. destruct (X d Db Da); auto.
Qed.

(** ** Sets sharing digits *)
Definition digit_a : member := of_ops "A" [mref "first"; mref "second"; cp_r 1 ["1"; "0"]; cp_w 2 (Some "final"); lvar [1] [2]; lvar [2] [1]; cp_r 9 ["0"]].
Definition digit_b : member := of_ops "B" [mref "third"; cp_w 9 (Some "digit"); cp_r 10 ["0"];
  LAddVariant [9] [10] None (Some "initial") None None ["0"] None false false; lvar [9] [10]; lvar [10] [9]; LAddRange 20 22 None ["0"] [] None None None false false].
Definition digit_c : member := of_ops "C" [mref "first"; cp_r 1 ["0"]; cp_r 9 []; cp_r 3 []; cp_r 21 ["0"]].
Definition digits : list member := [digit_c; digit_a; digit_b].
Lemma digits_meet : (forall m, In m digits -> proper (mb_lgr m) /\ texts_once m /\ contexts_named m) /\ NoDup (map get_script digits) /\ one_speaks digits /\
  in_two digits [9] /\ in_two digits [21] /\ ~ nothing_said digit_b [9].
Proof.
  assert (P : forall m, In m digits -> proper (mb_lgr m)).
  { intros m [<-|[<-|[<-|[]]]]; apply proper_of; vm_compute; reflexivity. }
  assert (R : forall m, In m digits -> lgr_reachable (mb_lgr m)) by (intros m Hm; apply tidy_reachable, proper_tidy, P, Hm).
  split; [|split; [|split; [|split; [|split]]]].
  - intros m Hm. split; [exact (P m Hm)|]. split; [|apply namedb_sound; [exact (R m Hm)|]]; [apply onceb_sound|]; destruct Hm as [<-|[<-|[<-|[]]]]; vm_compute; reflexivity.
  - repeat constructor; cbn; intuition discriminate.
  - apply quiet_speaks. unfold digits in *. repeat (apply FOP_cons || apply FOP_nil || apply Forall_cons || apply Forall_nil); (apply quiet_pair_sound; [apply R; cbn; auto|vm_compute; reflexivity]).
  - exists digit_c, digit_a, [digit_b]. split; [apply Permutation_refl|]. split; vm_compute; discriminate.
  - exists digit_c, digit_b, [digit_a]. split; [constructor; constructor|]. split; vm_compute; discriminate.
  - intros [X _]. vm_compute in X. discriminate.
Qed.
(** ** A context rule without name *)
Definition nameless : member := of_ops "A" [cp_r 1 []; cp_r 2 []; lvar [1] [2]; LAddVariant [1] [2] None (Some "") None None [] None false false].
Lemma nameless_stops : exists m e, proper (mb_lgr m) /\ texts_once m /\ merge_given [m] = Raise e.
Proof.
  exists nameless. eexists. split; [apply proper_of; vm_compute; reflexivity|]. split; [apply onceb_sound; vm_compute; reflexivity|]. vm_compute. reflexivity.
Qed.
