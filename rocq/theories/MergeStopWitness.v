(** Two LGRs with the same contents, where variants have a context rule. *)
From Coq Require Import Permutation.
From Verif Require Import Base BaseFacts CharModel RepSpec RepProofs LgrModel LgrSpec LgrProofs LgrReach LgrFinal LgrRange ValidateFinal ValidateSpec SerialSpec SerialFinal MergeModel MergeSpec MergeFinal MergeWitness MergeSucceedSpec MergeSucceedWitness MergeStop.
Open Scope string_scope.
Open Scope N_scope.
Open Scope list_scope.

Definition when_r (a b : N) : lgr_op := LAddVariant [a] [b] (Some "blocked") (Some "r") None None [] None false false.
Definition when_ops : list lgr_op := [lcp [1]; lcp [2]; when_r 1 2; when_r 2 1].
Definition when_a : member := of_ops "A" when_ops.
Definition when_b : member := of_ops "B" when_ops.
Lemma when_mappings : forall a b v, mapping (lg_rep (lgr_of when_ops)) a b v -> v_when v = Some "r" /\ v_not_when v = None.
Proof.
  intros a b v [ch [X1 [X2 X3]]]. rewrite lookup_lk in X1. apply lk_in_all in X1; [|apply lgr_reachable_wf, lgr_of_reachable]. vm_compute in X1.
  destruct X1 as [<-|[<-|[]]]; vm_compute in X2; destruct X2 as [<-|[]]; split; reflexivity.
Qed.
Lemma when_meet : (forall m, In m [when_a; when_b] -> tidy (mb_lgr m)) /\ variant_rules_clear [when_a; when_b] /\ conditional when_a [1] [2] /\ conditional when_b [1] [2] /\
  merge_given [when_a; when_b] = Raise (VariantAlreadyExists [2] [2]).
Proof.
  split. { intros m [<-|[<-|[]]]; apply proper_tidy, proper_of; vm_compute; reflexivity. }
  split.
  - intros m x a b v n Hm Hx M H [r S].
    assert (N : n = "r") by (destruct Hx as [<-|[<-|[]]]; destruct (when_mappings a b v M) as [W1 W2]; rewrite W1, W2 in H; destruct H; congruence).
    rewrite N in S. destruct Hm as [<-|[<-|[]]]; vm_compute in S; discriminate.
  - assert (C : forall s, conditional (of_ops s when_ops) [1] [2]).
    { intro s. exists (mkVariant [2] (Some "blocked") (Some "r") None None []), "r". split; [|split; [left; reflexivity|discriminate]].
      eexists. split; [vm_compute; reflexivity|]. split; [left; reflexivity|reflexivity]. }
    split; [apply C|]. split; [apply C|]. vm_compute. reflexivity.
Qed.
