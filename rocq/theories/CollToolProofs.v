(** What the collision tool says. *)
From Verif Require Import Base BaseFacts UtilsModel CharModel ActionModel LabelModel RepSpec RangeProofs RepProofs ActionSpec LabelSpec LabelProofs LabelElig LabelIndex LabelGen LabelVar LabelList CollToolModel CollToolSpec.
Open Scope string_scope.
Open Scope list_scope.

(** ** Options *)
Lemma memb_known : forall s l, memb String.eqb s l = true <-> In s l.
Proof. intros s l. apply (memb_In _ _ string_eqb_iff). Qed.
Theorem add_arguments_iff : forall l known, NoDup known -> (forall a, In a l -> NoDup a) ->
  ((exists k, add_arguments known l = Ok k) <-> NoDup (known ++ List.concat l)).
Proof.
  induction l as [|a l IH]; intros known Hk Ha; cbn [add_arguments List.concat].
  - rewrite app_nil_r. split; eauto.
  - destruct (existsb (fun s => memb String.eqb s known) a) eqn:E.
    + split; [intros [k K]; discriminate|]. intro N. exfalso. apply existsb_exists in E. destruct E as [s [S1 S2]]. apply memb_known in S2.
      apply NoDup_app_iff in N. destruct N as [_ [_ N]]. apply (N s S2). apply in_or_app. left. exact S1.
    + rewrite app_assoc. apply IH.
      * apply NoDup_app_iff. split; [exact Hk|]. split; [apply Ha; left; reflexivity|]. intros s S2 S1.
        assert (K : existsb (fun s => memb String.eqb s known) a = true) by (apply existsb_exists; exists s; split; [exact S1|apply memb_known; exact S2]). congruence.
      * intros b Hb. apply Ha. right. exact Hb.
Qed.
Lemma declare_iff : forall l, (forall a, In a l -> NoDup a) -> ((exists k, declare l = Ok k) <-> NoDup ("-h" :: "--help" :: List.concat l)).
Proof.
  intros l Ha. unfold declare. apply (add_arguments_iff l ["-h"; "--help"]); [|exact Ha].
  constructor; [intros [K|[]]; discriminate|]. constructor; [intros []|constructor].
Qed.
Lemma others_start : Forall (fun t => exists k, declare (snd t) = Ok k) other_tools.
Proof. repeat constructor; eexists; vm_compute; reflexivity. Qed.
Lemma collision_args_conflict : declare collision_args = Raise ValueError.
Proof. reflexivity. Qed.

(** ** Answers *)
Section Tool.
  Variables (rm : rule_oracle) (r : repertoire) (acts : list action) (script : N -> string) (db : bool).
  Hypothesis Hr : reachable r.
  Let Hwf : wf_rep r := reachable_wf r Hr.
  Notation tindex := (tool_index rm r).

  Lemma smallest_one : forall P a b, smallest P a -> smallest P b -> a = b.
  Proof. exact smallest_unique. Qed.
  Lemma tool_index_cases : forall l, (exists i, tindex l = Ok i /\ has_index rm r l i) \/ (exists x, tindex l = Raise (NotInLGR [x]) /\ outside rm r l x).
  Proof.
    intro l. unfold tool_index. destruct l as [|x l].
    - left. exists []. split; [reflexivity|]. left. auto.
    - assert (Hne : x :: l <> []) by discriminate. destruct (preliminary_spec rm r (x :: l) Hr) as [p [_ [H2 _]]].
      pose proof (index_once_spec rm r (x :: l) Hr Hne _ _ H2) as S. destruct (pr_invalid p) as [|[y w] inv]; cbn [map] in S, H2.
      + destruct S as [m [S1 S2]]. left. exists m. split; [cbn [index_label]; rewrite S1; reflexivity|]. right. split; [exact Hne|]. split; [eauto|exact S2].
      + right. exists y. split; [cbn [index_label]; rewrite S; reflexivity|]. split; [exact Hne|]. eauto.
  Qed.
  Lemma has_index_fun : forall l i j, has_index rm r l i -> has_index rm r l j -> i = j.
  Proof.
    intros l i j [[A1 A2]|[A1 [_ A2]]] [[B1 B2]|[B1 [_ B2]]]; try congruence. exact (smallest_one _ _ _ A2 B2).
  Qed.
  Lemma outside_not : forall l x i, outside rm r l x -> ~ has_index rm r l i.
  Proof.
    intros l x i [A (chars & w & inv & L)] [[B _]|[_ [(c2 & L2) _]]]; [contradiction|].
    destruct (longest_match_deterministic _ _ _ _ _ _ L _ _ L2) as [_ E]. discriminate.
  Qed.
  Lemma index_iff : forall l i, tindex l = Ok i <-> has_index rm r l i.
  Proof.
    intros l i. destruct (tool_index_cases l) as [(j & J1 & J2)|(x & J1 & J2)]; rewrite J1; split.
    - intro K. injection K as <-. exact J2.
    - intro K. f_equal. exact (has_index_fun l j i J2 K).
    - discriminate.
    - intro K. exfalso. exact (outside_not l x i J2 K).
  Qed.

  (** The table of the reference labels. *)
  Definition right_table (seen : list cps) (t : list (cps * cps)) : Prop := 
    forall i, match dget cps_eqb i t with
              | Some ref => named rm r seen i ref
              | None => forall l, In l seen -> ~ has_index rm r (strip l) i
              end.
  Lemma named_more : forall seen i ref x, named rm r seen i ref -> ~ has_index rm r (strip x) i -> named rm r (seen ++ [x]) i ref.
  Proof.
    intros seen i ref x (pre & line & post & E & S & H & N) K. exists pre, line, (post ++ [x]). split; [rewrite E, <- app_assoc; reflexivity|].
    split; [exact S|]. split; [exact H|]. intros l L. apply in_app_iff in L. destruct L as [L|[<-|[]]]; [exact (N l L)|exact K].
  Qed.
  Lemma reference_indexes_spec : forall lines seen t, right_table seen t -> exists t', reference_indexes rm r lines t = Ok t' /\ right_table (seen ++ lines) t'.
  Proof.
    induction lines as [|x lines IH]; intros seen t H.
    - exists t. split; [reflexivity|]. rewrite app_nil_r. exact H.
    - cbn [reference_indexes]. destruct (tool_index_cases (strip x)) as [(i & J1 & J2)|(y & J1 & J2)]; rewrite J1.
      + destruct (IH (seen ++ [x]) (dset cps_eqb i (strip x) t)) as (t' & T1 & T2); [|exists t'; rewrite <- app_assoc in T2; auto].
        intro j. rewrite (dget_dset _ cps_eqb_eq). destruct (cps_eqb j i) eqn:E.
        * apply cps_eqb_eq in E. subst j. exists seen, x, []. split; [reflexivity|]. split; [reflexivity|]. split; [exact J2|intros l []].
        * assert (Q : ~ has_index rm r (strip x) j). { intro Q. pose proof (has_index_fun _ _ _ J2 Q) as F. subst j. rewrite cps_eqb_refl in E. discriminate. }
          specialize (H j). destruct (dget cps_eqb j t) as [ref|]; [exact (named_more _ _ _ _ H Q)|].
          intros l L. apply in_app_iff in L. destruct L as [L|[<-|[]]]; [exact (H l L)|exact Q].
      + destruct (IH (seen ++ [x]) t) as (t' & T1 & T2); [|exists t'; rewrite <- app_assoc in T2; auto].
        intro j. assert (Q : ~ has_index rm r (strip x) j) by exact (outside_not _ _ _ J2). specialize (H j).
        destruct (dget cps_eqb j t) as [ref|]; [exact (named_more _ _ _ _ H Q)|].
        intros l L. apply in_app_iff in L. destruct L as [L|[<-|[]]]; [exact (H l L)|exact Q].
  Qed.

  Lemma empty_variants : label_variants rm r script [] false = Some [].
  Proof. reflexivity. Qed.
  Lemma nothing_replaced : forall done l p, replacement rm (considered rm r) done l p -> l = [] -> p = [].
  Proof.
    intros done l p H E. destruct H as [done|done ch tail p A B H|done ch v tail p A B H]; [reflexivity| |];
      (exfalso; apply app_eq_nil in E; destruct E as [E _]; exact (entry_nonempty _ _ (proj1 (considered_entry _ _ _ _ _ A)) E)).
  Qed.
  Lemma variant_labels_In : forall l, exists ws, label_variants rm r script l false = Some ws /\ forall v, In v (map vl_cp ws) <-> variant_label rm r l v.
  Proof.
    intro l. destruct l as [|x l].
    - exists []. split; [reflexivity|]. intro v. split; [intros []|]. intros (p & P1 & (l0 & y & P2 & _) & _). subst p. exfalso.
      pose proof (nothing_replaced _ _ _ P1 eq_refl) as K. destruct l0; discriminate.
    - destruct (variants_exact rm r script Hwf (x :: l)) as (ws & W1 & W2 & W3); [discriminate|]. exists ws. split; [exact W1|]. intro v. rewrite in_map_iff. split.
      + intros (w & E & Hw). destruct (W2 w Hw) as (p & P1 & P2 & P3). exists p. split; [exact P1|]. split; [exact P2|]. rewrite <- E. symmetry. apply P3.
      + intros (p & P1 & P2 & P3). destruct (W3 p P1 P2) as (w & Hw & P4). exists w. split; [|exact Hw]. rewrite <- P3. apply P4.
  Qed.
  Notation disposition label := (compute_label_disposition rm r acts script db label false false false []).
  Lemma blocks_spec : forall ref label, 
    snd (find_variants_to_block rm r acts script db ref label) = snd (disposition label) /\
    (snd (disposition label) = Ok tt -> to_block rm r acts script db ref label (fst (find_variants_to_block rm r acts script db ref label))).
  Proof.
    intros ref label. unfold find_variants_to_block, to_block. destruct (variant_labels_In ref) as (ws & W1 & W2). rewrite W1.
    destruct (disposition label) as [items o]. cbn [fst snd]. split; [reflexivity|]. intros ->. exists items. split; [reflexivity|].
    assert (K : forall k, In k (map (fun z => KBlock (ls_cp z) (ls_types z) (ls_disp z)) (filter (fun z => memb cps_eqb (ls_cp z) (map vl_cp ws)) items)) <->
                exists z, In z items /\ variant_label rm r ref (ls_cp z) /\ k = KBlock (ls_cp z) (ls_types z) (ls_disp z)).
    { intro k. rewrite in_map_iff. split.
      - intros (z & E & Hz). apply filter_In in Hz. destruct Hz as [Z1 Z2]. apply (memb_In _ _ cps_eqb_eq) in Z2. apply W2 in Z2. exists z. auto.
      - intros (z & Z1 & Z2 & E). exists z. split; [auto|]. apply filter_In. split; [exact Z1|]. apply (memb_In _ _ cps_eqb_eq). apply W2. exact Z2. }
    split.
    - intros k Hk. apply K in Hk. destruct Hk as (z & _ & _ & E). eauto.
    - intros v types d. rewrite K. split.
      + intros (z & Z1 & Z2 & E). injection E as E1 E2 E3. subst v types d. split; [exact Z2|]. exists z. auto.
      + intros (V & z & Z1 & E1 & E2 & E3). subst v types d. exists z. auto.
  Qed.
  (** One label. *)
  Lemma check_one_spec : forall generate refs t label, right_table refs t ->
    (forall x, outside rm r label x -> check_one rm r acts script db generate t label = ([KCheck label], Raise (NotInLGR [x]))) /\
    (forall i, has_index rm r label i -> 
       match check_one rm r acts script db generate t label with
       | (group, Ok _) => answers rm r acts script db generate refs label group
       | (group, Raise e) => generate = true /\ (exists ref, named rm r refs i ref) /\ snd (disposition label) = Raise e
       end).
  Proof.
    intros generate refs t label T. unfold check_one. split.
    - intros x O. destruct (tool_index_cases label) as [(i & I1 & I2)|(y & I1 & O2)].
      + exfalso. exact (outside_not _ _ _ O I2).
      + rewrite I1. destruct O as [_ (c1 & w1 & v1 & L1)]. destruct O2 as [_ (c2 & w2 & v2 & L2)].
        destruct (longest_match_deterministic _ _ _ _ _ _ L1 _ _ L2) as [_ E]. cbn [map] in E. injection E as E _. subst y. reflexivity.
    - intros i I. rewrite (proj2 (index_iff label i) I). specialize (T i). destruct (dget cps_eqb i t) as [ref|].
      + destruct generate.
        * destruct (blocks_spec ref label) as [B1 B2]. destruct (find_variants_to_block rm r acts script db ref label) as [bs o]. cbn [fst snd] in B1, B2.
          destruct o as [[]|e].
          -- exists i. split; [exact I|]. left. exists ref, bs. split; [exact T|]. split; [reflexivity|]. apply B2. symmetry. exact B1.
          -- split; [reflexivity|]. split; [eauto|]. symmetry. exact B1.
        * exists i. split; [exact I|]. left. exists ref, []. split; [exact T|]. split; reflexivity.
      + exists i. split; [exact I|]. right. split; [exact T|reflexivity].
  Qed.
  Theorem tool_answers : forall generate refs labels out o, collision_tool rm r acts script db generate refs labels = (out, o) ->
    match o with
    | Ok _ => exists groups, out = List.concat groups /\ Forall2 (answers rm r acts script db generate refs) labels groups
    | Raise e => exists before label after groups last, labels = before ++ label :: after /\ out = List.concat groups ++ KCheck label :: last /\
                 Forall2 (answers rm r acts script db generate refs) before groups /\ stopped rm r acts script db generate refs label e
    end.
  Proof.
    intros generate refs labels out o. unfold collision_tool. destruct (reference_indexes_spec refs [] []) as (t & T1 & T2); [intros i l []|]. rewrite T1. cbn [app] in T2.
    revert out o. induction labels as [|x labels IH]; intros out o E; cbn [check_labels] in E.
    - injection E as <- <-. exists []. split; [reflexivity|constructor].
    - destruct (check_one_spec generate refs t x T2) as [C1 C2]. destruct (tool_index_cases x) as [(i & _ & I)|(y & _ & O)].
      + specialize (C2 i I). pose proof (eq_refl (check_one rm r acts script db generate t x)) as D. unfold check_one in D at 2. rewrite (proj2 (index_iff x i) I) in D.
        destruct (check_one rm r acts script db generate t x) as [ks [[]|e]].
        * destruct (check_labels rm r acts script db generate t labels) as [ks' o'] eqn:E2. injection E as <- <-. specialize (IH _ _ eq_refl). destruct o' as [[]|e].
          -- destruct IH as (groups & -> & F). exists (ks :: groups). split; [reflexivity|]. constructor; assumption.
          -- destruct IH as (before & label & after & groups & last & -> & -> & F & S). exists (x :: before), label, after, (ks :: groups), last.
             split; [reflexivity|]. split; [cbn [List.concat]; rewrite <- app_assoc; reflexivity|]. split; [constructor; assumption|exact S].
        * injection E as <- <-. destruct C2 as (-> & (ref & N) & S). 
          assert (K : exists last, ks = KCheck x :: last).
          { destruct (dget cps_eqb i t); [|discriminate]. destruct (find_variants_to_block rm r acts script db c x). injection D as D _. eauto. }
          destruct K as [last ->]. exists [], x, labels, [], last. split; [reflexivity|]. split; [reflexivity|]. split; [constructor|]. right. split; [reflexivity|]. split; [eauto|exact S].
      + rewrite (C1 y O) in E. injection E as <- <-. exists [], x, labels, [], []. split; [reflexivity|]. split; [reflexivity|]. split; [constructor|]. left. eauto.
  Qed.
  (** When it gets to the end. *)
  Theorem tool_completes : forall generate refs labels, 
    (forall l, In l labels -> (exists i, has_index rm r l i) /\ (generate = true -> db = true /\ l <> [] /\ (List.length l <= 63)%nat)) ->
    exists out, collision_tool rm r acts script db generate refs labels = (out, Ok tt).
  Proof.
    intros generate refs labels H. destruct (collision_tool rm r acts script db generate refs labels) as [out o] eqn:E.
    pose proof (tool_answers _ _ _ _ _ E) as A. destruct o as [[]|e]; [eauto|]. exfalso.
    destruct A as (before & label & after & groups & last & L & _ & _ & S). destruct (H label) as [[i I] G]; [rewrite L; apply in_or_app; right; left; reflexivity|].
    destruct S as [(x & O & _)|(Hg & _ & D)]; [exact (outside_not _ _ _ O I)|]. destruct (G Hg) as (D1 & D2 & D3). rewrite D1 in D.
    destruct (listing_spec rm r acts script Hr label false false false [] D2 D3) as (ws & zs & q & _ & L1 & _). rewrite L1 in D. discriminate.
  Qed.
End Tool.
