(** Two members that give a code point the same variant, each under a context
    rule, cannot be merged. *)
From Coq Require Import Permutation.
From Verif Require Import Base BaseFacts CharModel RepSpec RepProofs RefModel LgrModel LgrSpec LgrProofs LgrFinal ValidateSpec MergeModel MergeSpec MergeProofs MergeSteps MergeLoop MergeRefs MergeFold MergeFinal MergeSucceedSpec.
Open Scope string_scope.
Open Scope list_scope.

Lemma renamed_starts : forall s o k, renamed s o = Some k -> starts s k.
Proof. intros s [n|] k H; cbn in H; [|discriminate]. destruct (String.eqb n ""); [discriminate|]. injection H as <-. exists n. reflexivity. Qed.

Lemma exists_last_or : forall (A : Type) (l : list A), l = [] \/ exists l' z, l = l' ++ [z].
Proof. intros A l. destruct l as [|x t]; [left; reflexivity|]. right. destruct (exists_last (l := x :: t)) as [l' [z E]]; [discriminate|]. eauto. Qed.

Section Ord.
  Variable ord_names : list string -> list string.
  Variable ord_variants : list variant -> list variant.
  Hypothesis Pv : any_order ord_variants.
  Variable l : list member.
  Hypothesis Clear : variant_rules_clear l.
  Variables c b : cps.
  Hypothesis Hcb : b <> c.

  Definition stop_inv (D : list member) (st : merged) : Prop := (forall m, In m D -> In m l) /\ Q_from D st /\
    (forall m, In m D -> conditional m c b -> exists w x k, mapping (lg_rep (mg_lgr st)) c b w /\ In x l /\ (v_when w = Some k \/ v_not_when w = Some k) /\ starts (get_script x) k) /\
    (forall A x B y, D = A ++ x :: B -> In y A -> conditional y c b -> conditional x c b -> False).

  Lemma state_rules : forall D st a d w k, (forall m, In m D -> In m l) -> Q_from D st -> mapping (lg_rep (mg_lgr st)) a d w -> v_when w = Some k \/ v_not_when w = Some k ->
    exists x, In x l /\ starts (get_script x) k.
  Proof.
    intros D st a d w k HD [_ F] M H. destruct (F a d w M) as [[x [v [X1 [_ [_ [_ [X2 [X3 _]]]]]]]]|[[_ [J1 [J2 _]]] _]].
    - exists x. split; [apply HD; exact X1|]. destruct H as [H|H]; [rewrite X2 in H|rewrite X3 in H]; eapply renamed_starts; eauto.
    - destruct H; congruence.
  Qed.
  Lemma key_rules : forall v w n, vkey w = vkey v -> v_when v = Some n \/ v_not_when v = Some n -> v_when w = Some n \/ v_not_when w = Some n.
  Proof. unfold vkey. intros v w n H [X|X]; [left|right]; congruence. Qed.

  Lemma stop_step : forall D st m st' P, In m l -> stop_inv D st -> took ord_names (map get_script D) st st' m P -> stop_inv (D ++ [m]) st'.
  Proof.
    intros D st m st' P Hm [HD [HF [HK HA]]] T. split; [|split; [|split]].
    - intros x Hx. apply in_app_iff in Hx. destruct Hx as [Hx|[<-|[]]]; auto.
    - eapply from_step; eauto.
    - intros x Hx Cx. apply in_app_iff in Hx. destruct Hx as [Hx|[<-|[]]].
      + destruct (HK x Hx Cx) as (w & y & k & W1 & W2). exists w, y, k. split; [|exact W2]. apply (tk_map _ _ _ _ _ _ T). auto.
      + destruct Cx as (v & n & V1 & V2 & V3). destruct (fresh_dec (mg_lgr st) c v) as [F|[u [U1 U2]]].
        * exists (carried (get_script m) (mapping_of (mg_map st') (get_script m)) v), m, (get_script m ++ "-" ++ n)%string.
          split; [apply (tk_map _ _ _ _ _ _ T); right; left; exists v; auto|]. split; [exact Hm|]. split; [|exists n; reflexivity].
          destruct (carried_copied m (mapping_of (mg_map st') (get_script m)) v) as [_ [_ [R1 [R2 _]]]]. rewrite R1, R2.
          apply String.eqb_neq in V3. destruct V2 as [-> | ->]; [left|right]; cbn; rewrite V3; reflexivity.
        * exfalso. destruct (state_rules D st c (v_cp v) u n HD HF U1 (key_rules _ _ _ U2 V2)) as [y [Y1 Y2]]. apply (Clear y m c b v n Y1 Hm V1 V2 Y2).
    - intros A x B y E Hy Cy Cx. destruct (exists_last_or _ B) as [->|[B' [z ->]]].
      + apply app_inj_tail in E. destruct E as [<- <-]. destruct (HK y Hy Cy) as (w & z & k & W1 & W2 & W3 & W4). destruct Cx as (v & n & V1 & V2 & V3).
        assert (Ev : v_cp v = b) by (destruct V1 as [? [_ [_ X]]]; exact X). assert (Ew : v_cp w = b) by (destruct W1 as [? [_ [_ X]]]; exact X).
        destruct (tk_all _ _ _ _ _ _ T c v w) as [p [P1 [P2 P3]]].
        * rewrite Ev. exact V1.
        * intros u U1 U2. destruct (state_rules D st c (v_cp v) u n HD HF U1 (key_rules _ _ _ U2 V2)) as [q [Y1 Y2]]. apply (Clear q m c b v n Y1 Hm V1 V2 Y2).
        * congruence.
        * rewrite Ew. exact W1.
        * intros u U1 U2. rewrite Ew in U1. apply (Clear z m c b u k W2 Hm U1); [|exact W4]. apply (key_rules w u k U2 W3).
        * congruence.
        * apply (tk_distinct _ _ _ _ _ _ T p v w P1 P2 P3). congruence.
      + apply (HA A x B' y); auto. rewrite app_comm_cons, app_assoc in E. apply app_inj_tail in E. destruct E as [-> _]. reflexivity.
  Qed.
  Theorem conditional_stops : (forall m, In m l -> tidy (mb_lgr m)) -> forall m1 m2 rest, Permutation l (m1 :: m2 :: rest) ->
    conditional m1 c b -> conditional m2 c b -> forall st, merge_lgr_set ord_names ord_variants l <> Ok st.
  Proof.
    intros T m1 m2 rest Hp C1 C2 st E.
    destruct (merged_ind ord_names ord_variants Pv stop_inv l st (fun D s m s' P Hm H _ K => stop_step D s m s' P Hm H K) T) as [[_ [_ [_ H]]] _]; [|exact E|].
    - split; [intros m []|]. split; [split; [apply entries_start|intros x y u Hu; destruct (start_map _ _ _ Hu)]|]. split; [intros m []|]. intros [|] ? ? ? X; discriminate.
    - pose proof (perm_trans (Permutation_sym (sorted_perm l)) Hp) as Q.
      assert (I : In m1 (isort script_leb l)) by (apply (Permutation_in _ (Permutation_sym Q)); left; reflexivity).
      destruct (in_split _ _ I) as [A [B EA]]. rewrite EA in Q. apply Permutation_sym, Permutation_cons_app_inv, Permutation_sym in Q.
      assert (J : In m2 (A ++ B)) by (apply (Permutation_in _ (Permutation_sym Q)); left; reflexivity). apply in_app_iff in J. destruct J as [J|J].
      + apply (H A m1 B m2 EA J C2 C1).
      + destruct (in_split _ _ J) as [B1 [B2 EB]]. apply (H (A ++ m1 :: B1) m2 B2 m1); auto; [rewrite EA, EB, <- app_assoc; reflexivity|]. apply in_app_iff. right. left. reflexivity.
  Qed.
End Ord.
