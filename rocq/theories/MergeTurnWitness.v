(** Samples for merging members one after the other. *)
From Coq Require Import Permutation.
From Verif Require Import Base BaseFacts CharModel RepSpec RepProofs LgrModel LgrSpec LgrProofs LgrReach LgrFinal ValidateModel ValidateSpec ValidateProofs ValidateFinal PopulateModel PopulateSpec PopulateFinal SerialSpec SerialFinal
  MergeModel MergeSpec MergeFinal MergeContext MergeWitness MergeSucceedSpec MergeSucceedWitness CombineSpec CombineWitness MergeLabelWitness MergePairExact HarmMergeWitness MergePairWitness MergeTurn.
Open Scope string_scope.
Open Scope N_scope.
Open Scope list_scope.

(** 1, 2 and 2, 3 and 3, 4: the last member in between, and at the end. *)
Definition chain : list member := [part_a; part_b; part_c].
Definition chain' : list member := [part_a; of_ops "B" (full [2; 3]); of_ops "C" (full [3; 4])].
Definition chains (m : member) : Prop := In m chain \/ In m chain'.

Lemma chain_all : forall m, chains m -> proper (mb_lgr m) /\ texts_once m /\ unconditional m /\ complete m.
Proof.
  assert (G : forall s ops, proper (lgr_of ops) -> texts_once (of_ops s ops) -> letters (lg_rep (lgr_of ops)) -> complete_ops ops ->
    proper (mb_lgr (of_ops s ops)) /\ texts_once (of_ops s ops) /\ unconditional (of_ops s ops) /\ complete (of_ops s ops)).
  { intros s ops A B C D. split; [exact A|]. split; [exact B|]. split; [apply letters_unconditional; exact C|exact D]. }
  intros m [[<-|[<-|[<-|[]]]]|[<-|[<-|[<-|[]]]]]; (apply G; [apply proper_of; vm_compute; reflexivity|apply onceb_sound; vm_compute; reflexivity|apply of_letters; vm_compute; reflexivity|ops_complete]).
Qed.
Lemma chain_free : forall m c, chains m -> when_of m c = None /\ not_when_of m c = None.
Proof.
  intros m c Hm. unfold when_of, not_when_of. destruct (lookup (lg_rep (mb_lgr m)) c) as [ch|] eqn:L; [|auto].
  revert L. destruct Hm as [[<-|[<-|[<-|[]]]]|[<-|[<-|[<-|[]]]]]; apply ops_free; vm_compute; reflexivity.
Qed.
Lemma chain_clear : forall l f, l = chain \/ l = chain' -> f = when_of \/ f = not_when_of -> unambiguous f l /\ same_rules f l.
Proof.
  intros l f Hl Hf. assert (I : forall m, In m l -> chains m) by (intros m Hm; destruct Hl as [-> | ->]; [left|right]; exact Hm).
  assert (N : forall m c, In m l -> f m c = None) by (intros m c Hm; destruct (chain_free m c (I m Hm)); destruct Hf as [-> | ->]; assumption).
  split; [split|].
  - intros m x c n _ Hx F. rewrite (N x c Hx) in F. discriminate.
  - intros m x rest R [r S]. assert (Hm : In m l) by (apply (Permutation_in _ (Permutation_sym R)); left; reflexivity).
    assert (Hx : In x l) by (apply (Permutation_in _ (Permutation_sym R)); right; left; reflexivity).
    assert (Nd : NoDup (map get_script (m :: x :: rest))) by (eapply Permutation_NoDup; [apply Permutation_map; exact R|]; destruct Hl as [-> | ->]; vm_compute; repeat constructor; cbn; intuition discriminate).
    cbn [map] in Nd. apply NoDup_cons_iff in Nd. destruct Nd as [Nd _]. apply Nd. left. clear - S Hm Hx Hl.
    destruct Hl as [-> | ->]; destruct Hm as [<-|[<-|[<-|[]]]]; destruct Hx as [<-|[<-|[<-|[]]]]; vm_compute in S |- *; try reflexivity; discriminate.
  - intros c m x n1 n2 Hm _ F. rewrite (N m c Hm) in F. discriminate.
Qed.
Lemma chain_scripts : NoDup (map get_script chain) /\ NoDup (map get_script chain').
Proof. split; vm_compute; repeat constructor; cbn; intuition discriminate. Qed.
Definition shown_targets (x : res merged) (cs : list cps) : option (list (list cps)) := match x with Ok st => Some (map (fun c => targets_of (mg_lgr st) c) cs) | Raise _ => None end.
Lemma shown_target : forall st x, has_target (lg_rep (mg_lgr st)) [1] x -> In x (targets_of (mg_lgr st) [1]).
Proof.
  intros st x [v [ch [C1 [C2 C3]]]]. unfold targets_of. rewrite get_char_lk by discriminate. rewrite lookup_lk in C1. rewrite C1. subst x. apply in_map. exact C2.
Qed.
Lemma target_shown : forall st x, In x (targets_of (mg_lgr st) [1]) -> has_target (lg_rep (mg_lgr st)) [1] x.
Proof.
  intros st x. unfold targets_of. rewrite get_char_lk by discriminate. destruct (lk (lg_rep (mg_lgr st)) [1]) as [ch|] eqn:E; [|intros []].
  intro H. apply in_map_iff in H. destruct H as [v [V1 V2]]. exists v, ch. rewrite lookup_lk. auto.
Qed.
Lemma shown_first : forall x cs t ts, shown_targets x ([1] :: cs) = Some (t :: ts) -> exists st, x = Ok st /\ targets_of (mg_lgr st) [1] = t.
Proof. intros [st|] cs t ts H; cbn [shown_targets map] in H; [|discriminate]. injection H as H _. eauto. Qed.
Lemma chain_merged : shown_targets (merge_lgr_set given given chain) [[1]; [2]; [3]; [4]] = Some [[[2]; [3]]; [[1]; [3]; [4]]; [[1]; [2]; [4]]; [[2]; [3]]] /\
  shown_targets (merge_lgr_set given given chain') [[1]; [2]; [3]; [4]] = Some [[[2]; [3]; [4]]; [[1]; [3]; [4]]; [[1]; [2]; [4]]; [[1]; [2]; [3]]].
Proof. split; vm_compute; reflexivity. Qed.
(** The same LGRs: which variants there are depends on the names of the scripts. *)
Lemma names_matter : exists l l' st st' a b, Permutation (map mb_lgr l) (map mb_lgr l') /\ (forall m, In m l \/ In m l' -> proper (mb_lgr m) /\ texts_once m /\ unconditional m /\ complete m) /\
  NoDup (map get_script l) /\ map get_script l = map get_script l' /\ merge_lgr_set given given l = Ok st /\ merge_lgr_set given given l' = Ok st' /\
  ~ has_target (lg_rep (mg_lgr st)) a b /\ has_target (lg_rep (mg_lgr st')) a b.
Proof.
  destruct chain_merged as [E1 E2]. apply shown_first in E1. apply shown_first in E2. destruct E1 as [st [M1 E1]]. destruct E2 as [st' [M2 E2]].
  exists chain, chain', st, st', [1], [4].
  split; [exact (perm_skip (lgr_of (full [1; 2])) (perm_swap (lgr_of (full [2; 3])) (lgr_of (full [3; 4])) []))|]. split; [intros m Hm; apply chain_all; exact Hm|].
  split; [apply chain_scripts|]. split; [vm_compute; reflexivity|]. split; [exact M1|]. split; [exact M2|]. split.
  - intro T. apply shown_target in T. rewrite E1 in T. destruct T as [T|[T|[]]]; discriminate.
  - apply target_shown. rewrite E2. right. right. left. reflexivity.
Qed.
(** What the exact condition says of the sample. *)
Lemma chain_turns : (exists st, merge_lgr_set given given chain = Ok st) /\ (forall m, In m chain -> proper (mb_lgr m) /\ texts_once m /\ unconditional m) /\
  NoDup (map get_script chain) /\ unambiguous when_of chain /\ unambiguous not_when_of chain /\ in_script_order chain /\ all_taken no_one nothing chain /\ ~ related_after no_one nothing chain [1] [4].
Proof.
  destruct (chain_clear chain when_of (or_introl eq_refl) (or_introl eq_refl)) as [U1 _]. destruct (chain_clear chain not_when_of (or_introl eq_refl) (or_intror eq_refl)) as [U2 _].
  assert (Pr : forall m, In m chain -> proper (mb_lgr m) /\ texts_once m /\ unconditional m) by (intros m Hm; destruct (chain_all m (or_introl Hm)) as [A [B [C _]]]; auto).
  pose proof (proj1 chain_scripts) as Nd.
  destruct chain_merged as [E1 _]. apply shown_first in E1. destruct E1 as [st [M1 E1]].
  assert (X : exists st, merge_lgr_set given given chain = Ok st) by (exists st; exact M1).
  assert (Sc : in_script_order chain) by (unfold chain, in_script_order; repeat constructor; vm_compute; discriminate).
  assert (Nk : NoDup (map sort_key chain)) by (vm_compute; repeat constructor; cbn; intuition discriminate).
  split; [exact X|]. split; [exact Pr|]. split; [exact Nd|]. split; [exact U1|]. split; [exact U2|]. split; [exact Sc|].
  destruct (in_turn given given (given_order _) (given_order _) chain Pr Nd U1 U2) as [l' [Hp [So [Ex Tg]]]].
  pose proof (order_unique chain l' Sc So Hp Nk) as El.
  rewrite <- El in Ex, Tg. specialize (Tg st M1 [1] [4]). apply proj1 in Ex. specialize (Ex X). split; [exact (proj2 (proj2 Ex))|].
  intro T. apply (proj2 Tg) in T. apply shown_target in T. rewrite E1 in T. destruct T as [T|[T|[]]]; discriminate.
Qed.
