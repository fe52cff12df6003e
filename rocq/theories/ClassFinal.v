From Coq Require Import Ascii.
From Verif Require Import Base BaseFacts ClassModel ClassSpec ClassProofs.
Open Scope string_scope.
Open Scope list_scope.

(** ** Validation *)
Lemma top_iff : forall top (n : option string), top = (match n with Some _ => true | None => false end) <-> (top = true <-> n <> None).
Proof. intros [] [n|]; split; intuition congruence. Qed.
Lemma validate_class_iff : forall look c top, validate_class look top c = Ok tt <-> valid_class look top c.
Proof.
  intro look. apply (cls_induct (fun c => forall top, validate_class look top c = Ok tt <-> valid_class look top c)).
  - intros n b t p l top. cbn [validate_class].
    assert (Hn : Bool.eqb top match n with Some _ => true | None => false end = true <-> (top = true <-> n <> None)) by (rewrite Bool.eqb_true_iff; apply top_iff).
    split.
    + intro H. destruct b as [b|].
      * unfold dmem in H. destruct (dget String.eqb b look) eqn:E; [|discriminate]. destruct (Bool.eqb _ _); [|discriminate].
        constructor; [apply Hn; reflexivity|]. intros x Hx. injection Hx as Hx. subst x. congruence.
      * destruct (Bool.eqb _ _); [|discriminate]. constructor; [apply Hn; reflexivity|discriminate].
    + intro H. inversion H as [? ? ? ? ? ? HN HB|]; subst. assert (He : Bool.eqb top match n with Some _ => true | None => false end = true) by (apply Hn; assumption). rewrite He.
      destruct b as [b|]; [|reflexivity]. unfold dmem. specialize (HB b eq_refl). destruct (dget String.eqb b look); [reflexivity|congruence].
  - intros n op ch IH top. rewrite validate_class_comb. split.
    + intros [H1 [H2 H3]]. constructor.
      * apply top_iff. exact H1.
      * destruct op; cbn [children_ok] in H3; rewrite ?Nat.eqb_eq, ?Nat.leb_le in H3; exact H3.
      * intros c Hc. apply IH; auto.
    + intro H. inversion H; subst. split; [apply top_iff; assumption|]. split; [intros c Hc; apply IH; auto|].
      destruct op; cbn [children_ok]; rewrite ?Nat.eqb_eq, ?Nat.leb_le; assumption.
Qed.
Lemma validate_class_error : forall look c top e, validate_class look top c = Raise e -> exists r, e = LGRFormatException r.
Proof.
  intro look. apply (cls_induct (fun c => forall top e, validate_class look top c = Raise e -> exists r, e = LGRFormatException r)).
  - intros n b t p l top e H. cbn [validate_class] in H. destruct b as [b|]; [destruct (dmem String.eqb b look)|]; try (destruct (Bool.eqb _ _)); inversion H; eauto.
  - intros n op ch IH top e H. cbn [validate_class] in H. destruct (Bool.eqb _ _); [|inversion H; eauto].
    set (all := fix all (l : list cls) : res unit := match l with [] => Ok tt | x :: l' => bind (validate_class look false x) (fun _ => all l') end) in H.
    assert (Hall : forall l, (forall c, In c l -> In c ch) -> forall e, all l = Raise e -> exists r, e = LGRFormatException r).
    { induction l as [|x l IHl]; intros Hsub e' He; [discriminate|]. cbn [all] in He. fold all in He.
      destruct (validate_class look false x) as [[]|e0] eqn:Ex; cbn [bind] in He.
      - apply IHl; [intros c Hc; apply Hsub; right; exact Hc|exact He].
      - injection He as He. subst e0. apply (IH x (Hsub x (or_introl eq_refl)) false e' Ex). }
    destruct (all ch) as [[]|e0] eqn:Ea; cbn [bind] in H.
    + destruct (children_ok op (length ch)); inversion H; eauto.
    + injection H as H. subst e0. apply (Hall ch (fun c Hc => Hc) e Ea).
Qed.
Theorem add_class_spec : forall look c n, cls_name c = Some n ->
  forall force look' o, add_class look c force = (look', o) ->
  (o = Ok tt -> (force = true \/ valid_class look true c) /\ forall m, dget String.eqb m look' = if String.eqb m n then Some c else dget String.eqb m look) /\
  (forall e, o = Raise e -> force = false /\ ~ valid_class look true c /\ look' = look /\ exists r, e = LGRFormatException r).
Proof.
  intros look c n Hn force look' o H. unfold add_class in H. rewrite Hn in H.
  assert (Hget : forall m, dget String.eqb m (dset String.eqb n c look) = if String.eqb m n then Some c else dget String.eqb m look) by (intro; apply (dget_dset _ string_eqb_iff)).
  destruct (validate_class look true c) as [[]|e] eqn:E.
  - injection H as H1 H2. subst. split; [|discriminate]. intros _. split; [right; apply validate_class_iff; exact E|exact Hget].
  - destruct force; injection H as H1 H2; subst.
    + split; [|discriminate]. intros _. auto.
    + split; [discriminate|]. intros e' He. injection He as He. subst e'. split; [reflexivity|]. split; [|split; [reflexivity|eapply validate_class_error; eauto]].
      intro V. apply validate_class_iff in V. congruence.
Qed.

(** ** More fuel does not change a result *)
Lemma class_set_mono : forall u look f,
  (forall c r, class_set u look f c = r -> r <> Raise OutOfFuel -> class_set u look (S f) c = r) /\
  (forall ch acc r, union_set u look f ch acc = r -> r <> Raise OutOfFuel -> union_set u look (S f) ch acc = r).
Proof.
  intros u look. induction f as [|f [IHc IHu]]; split.
  - intros c r H Hr. cbn in H. congruence.
  - intros ch acc r H Hr. cbn in H. congruence.
  - intros c r H Hr. destruct c as [n [b|] t p l|n op ch].
    + cbn [class_set] in H |- *. destruct (dget String.eqb b look) as [c'|]; [|exact H]. apply (IHc c' r H Hr).
    + destruct t as [t|]; [|exact H]. cbn [class_set] in H |- *. destruct (dget String.eqb (tag_classname t) look) as [c'|]; [|exact H]. apply (IHc c' r H Hr).
    + assert (Hbin : forall k : uset -> uset -> uset,
          match ch with
            | [] => Raise IndexError
            | c1 :: ch' => bind (class_set u look f c1) (fun s1 => match ch' with [] => Raise IndexError | c2 :: _ =>
                bind (class_set u look f c2) (fun s2 => Ok (k s1 s2)) end)
          end = r ->
          match ch with
            | [] => Raise IndexError
            | c1 :: ch' => bind (class_set u look (S f) c1) (fun s1 => match ch' with [] => Raise IndexError | c2 :: _ =>
                bind (class_set u look (S f) c2) (fun s2 => Ok (k s1 s2)) end)
          end = r).
      { intros k Hk. destruct ch as [|c1 ch']; [exact Hk|]. destruct (class_set u look f c1) as [s1|e1] eqn:E1; cbn [bind] in Hk.
        - rewrite (IHc c1 _ E1) by discriminate. cbn [bind]. destruct ch' as [|c2 ch']; [exact Hk|].
          destruct (class_set u look f c2) as [s2|e2] eqn:E2; cbn [bind] in Hk.
          + rewrite (IHc c2 _ E2) by discriminate. exact Hk.
          + rewrite (IHc c2 _ E2) by (rewrite Hk; exact Hr). exact Hk.
        - rewrite (IHc c1 _ E1) by (rewrite Hk; exact Hr). exact Hk. }
      destruct op.
      * destruct ch as [|c1 ch']; [exact H|]. change (class_set u look (S (S f)) (ClComb n Complement (c1 :: ch'))) with
          (bind (class_set u look (S f) c1) (fun s => Ok (bounded u (fun x => negb (s x))))).
        change (bind (class_set u look f c1) (fun s => Ok (bounded u (fun x => negb (s x)))) = r) in H.
        destruct (class_set u look f c1) as [s1|e1] eqn:E1; cbn [bind] in H.
        -- rewrite (IHc c1 _ E1) by discriminate. exact H.
        -- subst r. rewrite (IHc c1 _ E1) by exact Hr. reflexivity.
      * change (union_set u look (S f) ch (fun _ => false) = r). change (union_set u look f ch (fun _ => false) = r) in H. apply (IHu _ _ _ H Hr).
      * apply (Hbin (fun s1 s2 x => s1 x && s2 x)%bool). exact H.
      * apply (Hbin (fun s1 s2 x => s1 x && negb (s2 x))%bool). exact H.
      * apply (Hbin (fun s1 s2 x => (s1 x || s2 x) && negb (s1 x && s2 x))%bool). exact H.
  - intros ch acc r H Hr. destruct ch as [|c ch]; [exact H|]. rewrite union_cons in *. destruct (class_set u look f c) as [s|e] eqn:E; cbn [bind] in H.
    + rewrite (IHc c _ E) by discriminate. cbn [bind]. apply (IHu _ _ _ H Hr).
    + subst r. rewrite (IHc c _ E) by exact Hr. reflexivity.
Qed.
Lemma class_set_stable : forall u look f f' c r, (f <= f')%nat -> class_set u look f c = r -> r <> Raise OutOfFuel -> class_set u look f' c = r.
Proof.
  intros u look f f' c r Hle H Hr. induction Hle as [|f' Hle IH]; [exact H|]. apply (proj1 (class_set_mono u look f')); assumption.
Qed.
(** Three ways to end: a set, an error that more depth does not cure, or no end. *)
Theorem class_outcome : forall u look c, shaped c -> shaped_table look -> forall f,
  match class_set u look f c with
  | Ok s => denotes u look c (fun x => s x = true)
  | Raise e => e = OutOfFuel \/ ((forall S, ~ denotes u look c S) /\ forall f', (f <= f')%nat -> class_set u look f' c = Raise e)
  end.
Proof.
  intros u look c Hc Hl f. destruct (class_set u look f c) as [s|e] eqn:E.
  - apply (class_result u look c f s Hc Hl E).
  - assert (D : e = OutOfFuel \/ e <> OutOfFuel) by (destruct e; (left; reflexivity) || (right; discriminate)).
    destruct D as [D|D]; [left; exact D|right].
    assert (Hst : forall f', (f <= f')%nat -> class_set u look f' c = Raise e) by (intros f' Hf; apply (class_set_stable u look f f' c _ Hf E); congruence).
    split; [|exact Hst]. intros S HS. destruct (class_set_complete_gen u look c S HS) as [n Hn].
    destruct (Hn (f + n)%nat) as [s [Es _]]; [lia|]. rewrite (Hst (f + n)%nat) in Es by lia. discriminate.
Qed.

(** ** Construction *)
Lemma new_class_shaped : forall n b t p r l c, new_class n b t p r l = Ok c -> shaped c.
Proof.
  intros n b t p r l c H. unfold new_class in H. destruct b, n, t, p, r; try discriminate; injection H as H; subst; exact I.
Qed.
Lemma add_child_shaped : forall c d c', shaped c -> shaped d -> add_child c d = Ok c' -> shaped c'.
Proof.
  intros c d c' Hc Hd H. destruct c as [|n op ch]; [discriminate|]. cbn [add_child] in H.
  destruct (Nat.ltb 0 (max_children op) && Nat.leb (max_children op) (length ch))%bool eqn:E; [discriminate|]. injection H as H. subst c'.
  apply shaped_comb in Hc. destruct Hc as [_ Hch]. apply shaped_comb. split.
  - apply andb_false_iff in E. rewrite Nat.ltb_ge, Nat.leb_gt in E. rewrite app_length. cbn [length]. lia.
  - intros x Hx. apply in_app_or in Hx. destruct Hx as [Hx|[Hx|[]]]; [auto|subst; exact Hd].
Qed.
(** A class with a reference has nothing else. *)
Lemma new_class_by_ref : forall n b t p r l, (exists c, new_class n (Some b) t p r l = Ok c) <-> n = None /\ t = None /\ p = None /\ r = false.
Proof.
  intros n b t p r l. unfold new_class. destruct n, t, p, r; split; try (intros [c H]; discriminate); try (intros [H1 [H2 [H3 H4]]]; discriminate); eauto.
Qed.

(** ** Samples *)
Definition sample_db : unidb := mkDb 40 (fun n v => if (String.eqb n "sc" && String.eqb v "Latn")%bool then Some (fun x => N.leb 20 x) else None).
Definition lit (l : list N) : cls := ClPlain None None None None l.
Definition cref (b : string) : cls := ClPlain None (Some b) None None [].
Definition sample_ops : list class_op :=
  [CTag "t" [1; 2; 30];
   CAdd (ClPlain (Some "A") None None None [1; 2; 3]) false;
   CAdd (ClComb (Some "B") SymmetricDifference [cref "A"; ClPlain None None (Some "t") None []]) false;
   CAdd (ClComb (Some "C") Union [cref "B"; ClComb None Complement [ClPlain None None None (Some "sc:Latn") []]; lit [25]]) false;
   CTag "t" [1; 2; 31]].
Lemma sample_tag_like : forall n, (exists t, n = tag_classname t) -> exists r, n = String "#"%char r.
Proof. intros n [t H]. subst n. eexists. reflexivity. Qed.
Lemma sample_tidy : tidy_classes sample_db sample_ops.
Proof.
  intros pre o post E. unfold sample_ops in E.
  assert (Hnt : forall n, (forall r, n <> String "#"%char r) -> ~ tag_like n).
  { intros n Hn Ht. apply sample_tag_like in Ht. destruct Ht as [r Hr]. apply (Hn r Hr). }
  destruct pre as [|o1 [|o2 [|o3 [|o4 [|o5 pre]]]]]; cbn [app] in E; inversion E; subst; clear E; try exact I.
  - cbn [tidy_class_op]. split; [reflexivity|]. split; [exact I|]. split; [|split; [intros b []|intros p []]].
    intros n Hn. injection Hn as Hn. subst n. split; [reflexivity|]. apply Hnt. discriminate.
  - cbn [tidy_class_op]. split; [reflexivity|]. split; [cbn; repeat split; right; lia|]. split; [|split; [|intros p []]].
    + intros n Hn. injection Hn as Hn. subst n. split; [reflexivity|]. apply Hnt. discriminate.
    + intros b [Hb|[]]. subst b. apply Hnt. discriminate.
  - cbn [tidy_class_op]. split; [reflexivity|]. split; [cbn; repeat split; auto; right; lia|]. split; [|split].
    + intros n Hn. injection Hn as Hn. subst n. split; [reflexivity|]. apply Hnt. discriminate.
    + intros b [Hb|[]]. subst b. apply Hnt. discriminate.
    + intros p [Hp|[]]. subst p. exists "sc", "Latn". repeat split; discriminate.
  - destruct pre; discriminate.
Qed.
Lemma sample_value : match class_set sample_db (class_run sample_ops) 10 (cref "C") with Ok s => filter s (nrange 0 50) | Raise _ => [] end =
  [0; 1; 2; 3; 4; 5; 6; 7; 8; 9; 10; 11; 12; 13; 14; 15; 16; 17; 18; 19; 25; 31].
Proof. vm_compute. reflexivity. Qed.

(** Redefining a class by itself is accepted, and its evaluation never ends. *)
Definition loop_class : cls := ClComb (Some "A") Union [cref "A"; lit [1]].
Definition loop_ops : list class_op := [CAdd (ClPlain (Some "A") None None None [1]) false; CAdd loop_class false].
Lemma loop_table : class_run loop_ops = [("A", loop_class)].
Proof. vm_compute. reflexivity. Qed.
Lemma loop_accepted : forall pre o post, loop_ops = pre ++ o :: post -> match o with CAdd c f => snd (add_class (class_run pre) c f) = Ok tt | _ => False end.
Proof.
  intros pre o post E. unfold loop_ops in E. destruct pre as [|o1 [|o2 pre]]; cbn [app] in E; inversion E; subst; clear E; [reflexivity|reflexivity|destruct pre; discriminate].
Qed.
Lemma loop_forever : forall u f, class_set u (class_run loop_ops) f loop_class = Raise OutOfFuel.
Proof.
  intros u f. rewrite loop_table. induction f as [f IH] using lt_wf_ind. destruct f as [|[|[|f]]]; try reflexivity.
  change (class_set u [("A", loop_class)] (S (S (S f))) loop_class) with
    (bind (class_set u [("A", loop_class)] f loop_class) (fun s => union_set u [("A", loop_class)] (S f) [lit [1]] (fun x => false || s x)%bool)).
  rewrite IH by lia. reflexivity.
Qed.
Lemma redefinition_loops : exists ops n c, (forall pre o post, ops = pre ++ o :: post -> match o with CAdd c f => f = false /\ snd (add_class (class_run pre) c f) = Ok tt | _ => False end) /\
  dget String.eqb n (class_run ops) = Some c /\ forall u f, class_set u (class_run ops) f c = Raise OutOfFuel.
Proof.
  exists loop_ops, "A", loop_class. split; [|split; [reflexivity|exact loop_forever]].
  intros pre o post E. pose proof (loop_accepted pre o post E) as H. destruct o; try contradiction. split; [|exact H].
  unfold loop_ops in E. destruct pre as [|o1 [|o2 pre]]; cbn [app] in E; inversion E; try reflexivity. destruct pre; discriminate.
Qed.
(** Validation does not look at properties. *)
Lemma bad_property_accepted : exists c, valid_class [] true c /\ forall u f, (1 <= f)%nat -> class_set u [] f c = Raise ValueError.
Proof.
  exists (ClPlain (Some "A") None None (Some "script") []). split.
  - constructor; [split; [discriminate|reflexivity]|discriminate].
  - intros u [|f] Hf; [lia|]. reflexivity.
Qed.

(** ** Editing the code points of a class *)
Lemma class_edits : forall u look n l0 l (add : bool) c' (S : N -> Prop),
  denotes u look (ClPlain n None None None l0) S ->
  (if add then add_class_codepoints else del_class_codepoints) (ClPlain n None None None l0) l = Ok c' ->
  cls_name c' = n /\ denotes u look c' (if add then fun x => S x \/ (x <= ud_max u /\ In x l) else fun x => S x /\ ~ In x l).
Proof.
  intros u look n l0 l add c' S HS H. assert (HS' : forall x, S x <-> x <= ud_max u /\ In x l0).
  { inversion HS as [| | | |? ? ? Hx| | | | | |]; subst. exact Hx. }
  destruct add; cbn in H; injection H as <-; (split; [reflexivity|]); apply D_literal; intro x; rewrite HS'.
  - rewrite (dedup_In _ _ N_eqb_iff), in_app_iff. tauto.
  - rewrite filter_In, negb_true_iff. pose proof (memb_In _ _ N_eqb_iff x l) as Hm. destruct (memb N.eqb x l); [|intuition congruence].
    split; [intros [_ Hx]; exfalso; apply Hx; apply Hm; reflexivity|intros [_ [_ Hx]]; discriminate].
Qed.
Lemma class_edits_kept : forall c l (add : bool) c', (if add then add_class_codepoints else del_class_codepoints) c l = Ok c' ->
  match c, c' with
  | ClPlain n b t p l0, ClPlain n' b' t' p' l1 => n' = n /\ b = None /\ b' = None /\ t' = t /\ p' = p /\ (NoDup l0 -> NoDup l1)
  | _, _ => c' = c
  end.
Proof.
  intros [n [b|] t p l0|n op ch] l add c' H; destruct add; cbn in H; try discriminate; injection H as <-; auto;
    repeat (split; [reflexivity|]); intro Hn; [apply (dedup_NoDup _ _ N_eqb_iff)|apply NoDup_filter; exact Hn].
Qed.
Lemma class_edits_refused : forall c l (add : bool), (exists e, (if add then add_class_codepoints else del_class_codepoints) c l = Raise e) <-> cls_by_ref c <> None.
Proof.
  intros [n [b|] t p l0|n op ch] l add; destruct add; cbn; split; intro H; try congruence; try (destruct H; discriminate); eauto.
Qed.
