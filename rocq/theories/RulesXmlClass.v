(** Reading classes. *)
From Coq Require Import Ascii.
From Verif Require Import Base BaseFacts UtilsModel UtilsProofs AnnotateModel AnnotateSpec AnnotateRead TableModel TableSpec TableParts
  ClassModel ClassSpec SerialModel RulesXmlModel RulesXmlSpec.
Open Scope string_scope.
Open Scope list_scope.

Section Induct.
  Variable P : xelem -> Prop.
  Hypothesis H : forall s n a t ch, Forall P ch -> P (XElem s n a t ch).
  Fixpoint xelem_induct (e : xelem) : P e :=
    match e with
    | XElem s n a t ch => H s n a t ch ((fix all (l : list xelem) : Forall P l :=
        match l with [] => Forall_nil P | x :: l' => Forall_cons x (xelem_induct x) (all l') end) ch)
    end.
End Induct.

Lemma has_tag_iff : forall n e, has_tag n e = true <-> lgr_elem n e.
Proof.
  intros n e. unfold has_tag, lgr_elem. destruct (x_space e); [|split; [discriminate|intros [K _]; discriminate]..].
  rewrite String.eqb_eq. split; [intro K; auto|intros [_ K]; exact K].
Qed.
Lemma has_tag_false : forall n e, has_tag n e = false <-> ~ lgr_elem n e.
Proof. intros n e. rewrite <- has_tag_iff. destruct (has_tag n e); split; congruence. Qed.
Lemma lgr_elem_fun : forall n m e, lgr_elem n e -> lgr_elem m e -> n = m.
Proof. intros n m e [_ H] [_ K]. congruence. Qed.
Lemma has_tag_other : forall n m e, lgr_elem n e -> n <> m -> has_tag m e = false.
Proof. intros n m e H N. apply has_tag_false. intro K. apply N. exact (lgr_elem_fun _ _ _ H K). Qed.

Lemma mapM_iff : forall A B (f : A -> res B) l ys, mapM_res f l = Ok ys <-> Forall2 (fun x y => f x = Ok y) l ys.
Proof.
  intros A B f. induction l as [|x l IH]; intros ys; cbn [mapM_res].
  - split; [intro K; injection K as <-; constructor|intro K; inversion K; reflexivity].
  - destruct (f x) as [y|e] eqn:E; cbn [bind].
    + destruct (mapM_res f l) as [zs|e'] eqn:E'; cbn [bind].
      * split.
        -- intro K. injection K as <-. constructor; [exact E|]. apply IH. reflexivity.
        -- intro K. inversion K as [|? y' ? zs' K1 K2]; subst. apply IH in K2. congruence.
      * split; [discriminate|]. intro K. inversion K as [|? y' ? zs' K1 K2]; subst. apply IH in K2. congruence.
    + split; [discriminate|]. intro K. inversion K as [|? y' ? zs' K1 K2]; subst. congruence.
Qed.
Lemma Forall2_imp : forall A B (P Q : A -> B -> Prop) l l', (forall x y, In x l -> P x y -> Q x y) -> Forall2 P l l' -> Forall2 Q l l'.
Proof.
  intros A B P Q l l' H K. induction K; constructor; [apply H; [left; reflexivity|assumption]|].
  apply IHK. intros a b Ha. apply H. right. exact Ha.
Qed.

(** ** Code points *)
Lemma parse_cp_iff : forall w x, parse_cp w = Ok x <-> hex w x.
Proof.
  intros w x. unfold parse_cp, hex. destruct (py_int 16 w) as [z|e]; cbn [bind]; [|split; discriminate].
  unfold cp_of_int. destruct (Z.ltb_spec z 0) as [L|L].
  - split; [discriminate|]. intro K. injection K as K. lia.
  - split; intro K; injection K as K; f_equal; lia.
Qed.
Lemma split_ws_space : forall p s, blank p -> split_ws (p ++ s) = split_ws s.
Proof. intros p s H. unfold split_ws. induction H as [|c p Hc Hp IH]; [reflexivity|]. cbn [app split_ws_aux]. rewrite Hc. exact IH. Qed.
Lemma split_ws_after : forall p, blank p -> forall s cur, split_ws_aux cur (s ++ p) = split_ws_aux cur s.
Proof.
  intros p Hp. induction s as [|c s IH]; intro cur.
  - cbn [app]. destruct cur as [|d cur].
    + pose proof (split_ws_space p [] Hp) as K. rewrite app_nil_r in K. exact K.
    + destruct Hp as [|c p Hc Hp]; [reflexivity|]. cbn [split_ws_aux]. rewrite Hc. f_equal.
      pose proof (split_ws_space p [] Hp) as K. rewrite app_nil_r in K. exact K.
  - cbn [app split_ws_aux]. destruct (is_space c); [destruct cur|]; rewrite ?IH; reflexivity.
Qed.
Lemma split_ws_strip : forall t, split_ws (strip t) = split_ws t.
Proof.
  intro t. rewrite strip_is. destruct (lstrip_split t) as [p [E Hp]]. rewrite E at 2. rewrite split_ws_space by exact Hp.
  destruct (rstrip_split (lstrip t)) as [q [E' Hq]]. rewrite E' at 2. unfold split_ws. rewrite split_ws_after by exact Hq. reflexivity.
Qed.
Lemma text_item_iff : forall w l, text_item w = Ok l <-> item_is w l.
Proof.
  intros w l. unfold text_item. destruct (memb N.eqb 45%N w) eqn:E.
  - apply (memb_In _ _ N_eqb_iff) in E. split.
    + destruct (mapM_res parse_cp (split_on 45 w)) as [l'|e] eqn:M; cbn [bind]; [|discriminate]. apply mapM_iff in M.
      destruct l' as [|a [|b [|c l']]]; try discriminate. intro K. injection K as <-.
      inversion M as [|u a' us as' M1 M2 Eu Ea]; subst. inversion M2 as [|v b' vs bs' M3 M4 Ev Eb]; subst. inversion M4; subst.
      symmetry in Eu. apply split_on_is in Eu. destruct Eu as [_ [Ew Hf]]. cbn [join app] in Ew. subst w. inversion Hf as [|? ? F1 F2]; subst. inversion F2; subst.
      constructor; try assumption; apply parse_cp_iff; assumption.
    + intro K. inversion K as [? x N Hx|v u a b N1 N2 Ha Hb]; subst; [contradiction|].
      assert (Ep : split_on 45 (v ++ 45%N :: u) = [v; u]).
      { apply split_on_is. split; [discriminate|]. split; [reflexivity|]. constructor; [exact N1|]. constructor; [exact N2|constructor]. }
      rewrite Ep. cbn [mapM_res]. apply parse_cp_iff in Ha, Hb. rewrite Ha. cbn [bind]. rewrite Hb. reflexivity.
  - apply (memb_false _ _ N_eqb_iff) in E. split.
    + destruct (parse_cp w) as [x|e] eqn:Ex; cbn [bind]; [|discriminate]. intro K. injection K as <-. constructor; [exact E|]. apply parse_cp_iff. exact Ex.
    + intro K. inversion K as [? x N Hx|v u a b N1 N2 Ha Hb]; subst.
      * apply parse_cp_iff in Hx. rewrite Hx. reflexivity.
      * exfalso. apply E. apply in_or_app. right. left. reflexivity.
Qed.
Lemma class_text_iff : forall t l, class_text t = Ok l <-> exists ls, Forall2 item_is (split_ws t) ls /\ l = List.concat ls.
Proof.
  intros t l. unfold class_text. rewrite split_ws_strip. destruct (mapM_res text_item (split_ws t)) as [ls|e] eqn:M; cbn [bind].
  - apply mapM_iff in M. split.
    + intro K. injection K as <-. exists ls. split; [|reflexivity]. refine (Forall2_imp _ _ _ _ _ _ _ M). intros x y _. apply text_item_iff.
    + intros [ls' [K ->]]. f_equal. f_equal. assert (M' : mapM_res text_item (split_ws t) = Ok ls').
      { apply mapM_iff. refine (Forall2_imp _ _ _ _ _ _ _ K). intros x y _. apply text_item_iff. }
      apply mapM_iff in M. congruence.
  - split; [discriminate|]. intros [ls [K ->]]. exfalso. assert (M' : mapM_res text_item (split_ws t) = Ok ls).
    { apply mapM_iff. refine (Forall2_imp _ _ _ _ _ _ _ K). intros x y _. apply text_item_iff. }
    congruence.
Qed.
Lemma parse_cps_iff : forall s l, parse_cps s = Ok l <-> Forall2 hex (split_ws s) l.
Proof.
  intros s l. refine (iff_trans (mapM_iff _ _ parse_cp (split_ws s) l) _). split; intro K; refine (Forall2_imp _ _ _ _ _ _ _ K); intros x y _; apply parse_cp_iff.
Qed.
Lemma elem_cps_iff : forall e l, elem_cps e = Ok (Some l) <-> lists_cps e l.
Proof.
  intros e l. unfold elem_cps. split.
  - destruct (has_tag "char" e) eqn:T1.
    { apply has_tag_iff in T1. destruct (x_get e "cp") as [s|] eqn:E; cbn [needs_attr bind]; [|discriminate].
      destruct (parse_cps (txt s)) as [l'|] eqn:P; cbn [bind]; [|discriminate]. intro K. injection K as ->. apply parse_cps_iff in P.
      eapply lists_char; eassumption. }
    destruct (has_tag "range" e) eqn:T2.
    { apply has_tag_iff in T2. destruct (x_get e "first-cp") as [s|] eqn:E; cbn [needs_attr bind]; [|discriminate].
      destruct (parse_cp (txt s)) as [a|] eqn:P; cbn [bind]; [|discriminate].
      destruct (x_get e "last-cp") as [s'|] eqn:E'; cbn [needs_attr bind]; [|discriminate].
      destruct (parse_cp (txt s')) as [b|] eqn:P'; cbn [bind]; [|discriminate]. intro K. injection K as <-. apply parse_cp_iff in P, P'.
      eapply lists_range; eassumption. }
    destruct (has_tag "class" e) eqn:T3; [|discriminate]. apply has_tag_iff in T3. destruct (x_text e) as [t|] eqn:E; [|discriminate].
    destruct (class_text t) as [l'|] eqn:C; cbn [bind]; [|discriminate]. intro K. injection K as ->. apply class_text_iff in C. destruct C as [ls [C ->]].
    eapply lists_text; eassumption.
  - intro K. destruct K as [s l T E K|s s' a b T E E' Ha Hb|t ls T E K].
    + rewrite (proj2 (has_tag_iff _ _) T), E. cbn [needs_attr bind]. apply parse_cps_iff in K. rewrite K. reflexivity.
    + rewrite (has_tag_other _ "char" _ T) by discriminate. rewrite (proj2 (has_tag_iff _ _) T), E, E'. cbn [needs_attr bind].
      apply parse_cp_iff in Ha, Hb. rewrite Ha. cbn [bind]. rewrite Hb. reflexivity.
    + rewrite (has_tag_other _ "char" _ T), (has_tag_other _ "range" _ T) by discriminate. rewrite (proj2 (has_tag_iff _ _) T), E.
      assert (C : class_text t = Ok (List.concat ls)) by (apply class_text_iff; exists ls; auto). rewrite C. reflexivity.
Qed.

(** ** Plain classes *)
Lemma add_elem_plain : forall n t p s e c, add_elem (ClPlain n None t p s) e = Ok c ->
  exists l s', lists_cps e l /\ c = ClPlain n None t p s' /\ NoDup s' /\ forall x, In x s' <-> In x s \/ In x l.
Proof.
  intros n t p s e c H. unfold add_elem in H. destruct (elem_cps e) as [[l|]|x] eqn:E; cbn [bind cls_by_ref] in H; try discriminate.
  cbn [add_class_codepoints] in H. injection H as <-. exists l, (dedup N.eqb (s ++ l)). split; [apply elem_cps_iff; exact E|]. split; [reflexivity|].
  split; [apply (dedup_NoDup _ _ N_eqb_iff)|]. intro x. rewrite (dedup_In _ _ N_eqb_iff), in_app_iff. reflexivity.
Qed.
Lemma add_elem_lists : forall n t p s e l, lists_cps e l -> add_elem (ClPlain n None t p s) e = Ok (ClPlain n None t p (dedup N.eqb (s ++ l))).
Proof. intros n t p s e l H. apply elem_cps_iff in H. unfold add_elem. rewrite H. reflexivity. Qed.
Lemma add_elem_ref : forall n b t p s e c, add_elem (ClPlain n (Some b) t p s) e <> Ok c.
Proof.
  intros n b t p s e c H. unfold add_elem in H. destruct (elem_cps e) as [[l|]|x] eqn:E; cbn [bind cls_by_ref add_class_codepoints] in H; discriminate.
Qed.
Lemma add_elems_plain : forall n t p ch s c, NoDup s -> add_elems (ClPlain n None t p s) ch = Ok c ->
  exists ls s', Forall2 lists_cps ch ls /\ c = ClPlain n None t p s' /\ NoDup s' /\ forall x, In x s' <-> In x s \/ In x (List.concat ls).
Proof.
  intros n t p. induction ch as [|e ch IH]; intros s c Hs H; cbn [add_elems] in H.
  - injection H as <-. exists [], s. split; [constructor|]. split; [reflexivity|]. split; [exact Hs|]. intro x. cbn [List.concat In]. tauto.
  - destruct (add_elem (ClPlain n None t p s) e) as [c1|] eqn:E; cbn [bind] in H; [|discriminate].
    destruct (add_elem_plain _ _ _ _ _ _ E) as [l [s1 [H1 [-> [H2 H3]]]]]. destruct (IH _ _ H2 H) as [ls [s2 [K1 [K2 [K3 K4]]]]].
    exists (l :: ls), s2. split; [constructor; assumption|]. split; [exact K2|]. split; [exact K3|]. intro x. cbn [List.concat]. rewrite K4, H3, in_app_iff. tauto.
Qed.
Lemma add_elems_lists : forall n t p ch ls, Forall2 lists_cps ch ls -> forall s, exists c, add_elems (ClPlain n None t p s) ch = Ok c.
Proof.
  intros n t p ch ls H. induction H as [|e l ch ls H1 H2 IH]; intro s; [eexists; reflexivity|]. cbn [add_elems]. rewrite (add_elem_lists _ _ _ _ _ _ H1). cbn [bind]. apply IH.
Qed.
Lemma attr_words_none : forall o, (match attr_words o with [] => false | _ => true end) = false <-> (o = None \/ o = Some "").
Proof.
  intros [[|c s]|]; [split; auto|split; [|intros [K|K]; discriminate]|split; auto].
  intro K. exfalso. unfold attr_words, string_to_list in K. cbn [txt] in K.
  match type of K with context [split_on 32 ?w] => destruct (split_on 32 w) eqn:E end; [|discriminate K].
  apply split_on_is in E. destruct E as [E _]. contradiction.
Qed.

(** ** Combinations *)
Lemma combinator_iff : forall e op, combinator e = Some op <-> lgr_elem (comb_name op) e.
Proof.
  intros e op. unfold combinator. split.
  - intro K. repeat match type of K with context [has_tag ?n e] => let T := fresh "T" in destruct (has_tag n e) eqn:T; [apply has_tag_iff in T; inversion K; subst op; exact T|] end. discriminate.
  - intro K. destruct op; cbn [comb_name] in K;
      repeat match goal with |- context [has_tag ?n e] => first [rewrite (proj2 (has_tag_iff _ _) K)|rewrite (has_tag_other _ n _ K) by discriminate] end; reflexivity.
Qed.
Lemma combinator_not_class : forall e op, lgr_elem (comb_name op) e -> has_tag "class" e = false.
Proof. intros e op H. apply (has_tag_other _ _ _ H). destruct op; discriminate. Qed.
Lemma class_tag_iff : forall e, class_tag e = true <-> lgr_elem "class" e \/ exists op, lgr_elem (comb_name op) e.
Proof.
  intro e. unfold class_tag. destruct (has_tag "class" e) eqn:T.
  - apply has_tag_iff in T. split; auto.
  - apply has_tag_false in T. destruct (combinator e) as [op|] eqn:E.
    + apply combinator_iff in E. split; [intros _; right; eexists; exact E|reflexivity].
    + split; [discriminate|]. intros [K|[op K]]; [contradiction|]. apply combinator_iff in K. congruence.
Qed.

Fixpoint add_classes (l : list xelem) (c : cls) : res cls :=
  match l with
  | [] => Ok c
  | x :: l' => bind (parse_class x) (fun k => bind (add_child c k) (fun c1 => add_classes l' c1))
  end.
Lemma parse_class_eq : forall e, parse_class e =
  if has_tag "class" e then
    bind (new_class (x_get e "name") (x_get e "by-ref") (x_get e "from-tag") (x_get e "property")
                    (match attr_words (x_get e "ref") with [] => false | _ => true end) []) (fun c =>
    bind (match x_children e, x_text e with [], Some (_ :: _) => add_elem c e | _, _ => Ok c end) (fun c1 => add_elems c1 (x_children e)))
  else match combinator e with
       | Some op => add_classes (x_children e) (ClComb (x_get e "name") op [])
       | None => Raise TypeError
       end.
Proof.
  intros [sp n a tx ch]. cbn [parse_class]. destruct (has_tag "class" _); [reflexivity|]. destruct (combinator _) as [op|]; [|reflexivity].
  cbn [x_children]. generalize (ClComb (x_get (XElem sp n a tx ch) "name") op []). induction ch as [|x ch IH]; intro c; [reflexivity|].
  cbn [add_classes]. destruct (parse_class x) as [k|]; cbn [bind]; [|reflexivity]. destruct (add_child c k); cbn [bind]; [apply IH|reflexivity].
Qed.
Lemma add_child_room : forall n op l k c, room op (length l) -> add_child (ClComb n op l) k = Ok c <-> (c = ClComb n op (l ++ [k]) /\ room op (S (length l))).
Proof.
  intros n op l k c Hr. cbn [add_child].
  assert (D : (Nat.ltb 0 (max_children op) && Nat.leb (max_children op) (length l))%bool = true <-> ~ room op (S (length l))).
  { rewrite Bool.andb_true_iff, Nat.ltb_lt, Nat.leb_le. destruct op; cbn [max_children room] in *; split; intro K; try lia; tauto. }
  destruct (Nat.ltb 0 (max_children op) && Nat.leb (max_children op) (length l))%bool.
  - split; [discriminate|]. intros [_ K]. exfalso. exact (proj1 D eq_refl K).
  - split.
    + intro K. injection K as <-. split; [reflexivity|]. destruct op; cbn [room max_children] in *; try exact I; destruct (Nat.le_gt_cases (S (length l)) 1); destruct (Nat.le_gt_cases (S (length l)) 2); try lia;
        exfalso; assert (Q : false = true) by (apply D; lia); discriminate Q.
    + intros [-> _]. reflexivity.
Qed.
Lemma add_classes_iff : forall n op ch l c, room op (length l) ->
  add_classes ch (ClComb n op l) = Ok c <-> exists l', Forall2 (fun x k => parse_class x = Ok k) ch l' /\ c = ClComb n op (l ++ l') /\ room op (length (l ++ l')).
Proof.
  intros n op. induction ch as [|x ch IH]; intros l c Hr; cbn [add_classes].
  - split.
    + intro K. injection K as <-. exists []. rewrite app_nil_r. auto.
    + intros [l' [K [-> _]]]. inversion K; subst. rewrite app_nil_r. reflexivity.
  - destruct (parse_class x) as [k|e] eqn:E; cbn [bind].
    + destruct (add_child (ClComb n op l) k) as [c1|e] eqn:A; cbn [bind].
      * apply add_child_room in A; [|exact Hr]. destruct A as [-> Hr']. rewrite IH by (rewrite app_length, Nat.add_comm; exact Hr'). split.
        -- intros [l' [K1 [-> K2]]]. exists (k :: l'). rewrite <- app_assoc in *. cbn [app] in *. repeat split; [constructor; assumption|assumption].
        -- intros [l' [K1 [-> K2]]]. inversion K1 as [|? k' ? l2 J1 J2]; subst. rewrite E in J1. injection J1 as <-.
           exists l2. rewrite <- app_assoc. cbn [app]. auto.
      * split; [discriminate|]. intros [l' [K1 [-> K2]]]. exfalso. inversion K1 as [|? k' ? l2 J1 J2]; subst.
        assert (A' : add_child (ClComb n op l) k = Ok (ClComb n op (l ++ [k]))).
        { apply add_child_room; [exact Hr|]. split; [reflexivity|]. rewrite app_length in K2. cbn [length] in K2. destruct op; cbn [room] in *; lia || exact I. }
        congruence.
    + split; [discriminate|]. intros [l' [K1 _]]. inversion K1; congruence.
Qed.

(** ** Reading an element gives the class it says, if it says one *)
Theorem class_read : forall e c, parse_class e = Ok c -> class_of e c.
Proof.
  intro e. induction e as [s n a t ch IH] using xelem_induct. set (e := XElem s n a t ch). change ch with (x_children e) in IH. clearbody e.
  intros c H. rewrite parse_class_eq in H. destruct (has_tag "class" e) eqn:T.
  - apply has_tag_iff in T. destruct (x_get e "by-ref") as [b|] eqn:Eb.
    + cbn [new_class] in H. destruct (x_get e "name") eqn:E1; [discriminate|]. destruct (x_get e "from-tag") eqn:E2; [discriminate|]. destruct (x_get e "property") eqn:E3; [discriminate|].
      destruct (match attr_words (x_get e "ref") with [] => false | _ => true end) eqn:E4; [discriminate|]. cbn [bind] in H.
      destruct (x_children e) as [|x xs] eqn:Ec.
      * destruct (x_text e) as [[|y ys]|] eqn:Et.
        -- cbn in H. injection H as <-. apply says_ref; auto; [apply attr_words_none; exact E4|right; exact Et].
        -- exfalso. match type of H with bind ?q _ = _ => destruct q as [c1|] eqn:Q end; [|discriminate]. exact (add_elem_ref _ _ _ _ _ _ _ Q).
        -- cbn in H. injection H as <-. apply says_ref; auto; [apply attr_words_none; exact E4|left; exact Et].
      * cbn [bind add_elems] in H. exfalso. match type of H with bind ?q _ = _ => destruct q as [c1|] eqn:Q end; [|discriminate]. exact (add_elem_ref _ _ _ _ _ _ _ Q).
    + cbn [new_class bind] in H.
      assert (Hc : exists l s', content e l /\ c = ClPlain (x_get e "name") None (x_get e "from-tag") (x_get e "property") s' /\ NoDup s' /\ forall x, In x s' <-> In x l).
      { destruct (x_children e) as [|x xs] eqn:Ec.
        - destruct (x_text e) as [[|y ys]|] eqn:Et; cbn [bind add_elems] in H.
          + injection H as <-. exists [], []. repeat split; [apply content_none; [exact Ec|right; exact Et]|constructor|auto..].
          + destruct (add_elem _ e) as [c1|] eqn:Q in H; cbn [bind] in H; [|discriminate]. injection H as <-.
            destruct (add_elem_plain _ _ _ _ _ _ Q) as [l [s' [K1 [-> [K2 K3]]]]]. exists l, s'. repeat split; auto.
            * apply content_text; auto. intros [K|K]; congruence.
            * intro K. apply K3 in K. destruct K as [[]|K]; exact K.
            * intro K. apply K3. auto.
          + injection H as <-. exists [], []. repeat split; [apply content_none; [exact Ec|left; exact Et]|constructor|auto..].
        - cbn [bind] in H. destruct (add_elems_plain _ _ _ _ _ _ (NoDup_nil N) H) as [ls [s' [K1 [-> [K2 K3]]]]]. exists (List.concat ls), s'.
          repeat split; auto.
          + apply content_elems; [rewrite Ec; discriminate|rewrite Ec; exact K1].
          + intro K. apply K3 in K. destruct K as [[]|K]; exact K.
          + intro K. apply K3. auto. }
      destruct Hc as [l [s' [K1 [-> [K2 K3]]]]]. apply says_plain with (l := l); assumption.
  - destruct (combinator e) as [op|] eqn:Eo; [|discriminate]. apply combinator_iff in Eo.
    apply add_classes_iff in H; [|destruct op; cbn; lia || exact I]. destruct H as [l [K1 [-> K2]]]. cbn [app] in *. apply says_comb; [exact Eo| |exact K2].
    rewrite Forall_forall in IH. refine (Forall2_imp _ _ _ _ _ _ _ K1). intros x k Hx Hk. exact (IH x Hx k Hk).
Qed.
Lemma same_class_refl : forall c, same_class c c.
Proof.
  fix F 1. intros [n b t p l|n op l]; constructor; [reflexivity|]. induction l as [|x l IH]; constructor; [apply F|exact IH].
Qed.

Lemma lists_fun : forall e l l', lists_cps e l -> lists_cps e l' -> l = l'.
Proof. intros e l l' H K. apply elem_cps_iff in H, K. congruence. Qed.
Lemma lists_all_fun : forall es ls, Forall2 lists_cps es ls -> forall ls', Forall2 lists_cps es ls' -> ls = ls'.
Proof. intros es ls H. induction H as [|e l es ls H1 H2 IH]; intros ls' K; inversion K; subst; [reflexivity|]. f_equal; [eapply lists_fun; eassumption|auto]. Qed.
Lemma content_fun : forall e l l', content e l -> content e l' -> l = l'.
Proof.
  intros e l l' H K. destruct H; destruct K; try congruence; try contradiction; [eapply lists_fun; eassumption|]. f_equal. eapply lists_all_fun; eassumption.
Qed.
Lemma class_of_fun : forall e c, class_of e c -> forall c', class_of e c' -> same_class c c'.
Proof.
  intro e. induction e as [s n a t ch IH] using xelem_induct. set (e := XElem s n a t ch). change ch with (x_children e) in IH. clearbody e.
  intros c H c' K. destruct H as [e l u T E C ND I|e b T E E1 E2 E3 E4 C Tx|e op l T F R].
  - inversion K as [e0 l' u' T' E' C' ND' I'|e0 b T' E' E1 E2 E3 E4 C' Tx|e0 op l' T' F R]; subst e0; [|congruence|].
    + constructor. intro x. rewrite I, I'. rewrite (content_fun _ _ _ C C'). reflexivity.
    + exfalso. pose proof (lgr_elem_fun _ _ _ T T') as Q. destruct op; discriminate Q.
  - inversion K as [e0 l' u' T' E' C' ND' I'|e0 b' T' E' F1 F2 F3 F4 C' Tx'|e0 op l' T' F R]; subst e0; [congruence| |].
    + assert (b = b') by congruence. subst b'. constructor. reflexivity.
    + exfalso. pose proof (lgr_elem_fun _ _ _ T T') as Q. destruct op; discriminate Q.
  - inversion K as [e0 l' u' T' E' C' ND' I'|e0 b' T' E' F1 F2 F3 F4 C' Tx'|e0 op' l' T' F' R']; subst e0.
    + exfalso. pose proof (lgr_elem_fun _ _ _ T T') as Q. destruct op; discriminate Q.
    + exfalso. pose proof (lgr_elem_fun _ _ _ T T') as Q. destruct op; discriminate Q.
    + pose proof (lgr_elem_fun _ _ _ T T') as Q. assert (op = op') by (destruct op, op'; try discriminate Q; reflexivity). subst op'. constructor.
      clear - IH F F'. revert l' F'. rewrite Forall_forall in IH. induction F as [|x k xs ks F1 F2 IHF]; intros l' F'; inversion F' as [|? k' ? ks' F1' F2']; subst; constructor.
      * exact (IH x (or_introl eq_refl) k F1 k' F1').
      * apply IHF; [|exact F2']. intros y Hy. apply IH. right. exact Hy.
Qed.
Theorem class_readable : forall e c, class_of e c -> exists c', parse_class e = Ok c'.
Proof.
  intro e. induction e as [s n a t ch IH] using xelem_induct. set (e := XElem s n a t ch). change ch with (x_children e) in IH. clearbody e.
  intros c H. rewrite parse_class_eq. destruct H as [e l u T E C ND I|e b T E E1 E2 E3 E4 C Tx|e op l T F R].
  - rewrite (proj2 (has_tag_iff _ _) T), E. cbn [new_class bind]. destruct C as [C Tx|l C Tx L|ls C L].
    + rewrite C. cbn [add_elems]. destruct Tx as [Tx|Tx]; rewrite Tx; cbn [bind]; eexists; reflexivity.
    + rewrite C. cbn [add_elems]. destruct (x_text e) as [[|y ys]|] eqn:Et; cbn [bind]; try (eexists; reflexivity).
      rewrite (add_elem_lists _ _ _ _ _ _ L). cbn [bind]. eexists. reflexivity.
    + destruct (x_children e) as [|x xs]; [contradiction|]. cbn [bind]. eapply add_elems_lists. exact L.
  - rewrite (proj2 (has_tag_iff _ _) T), E, E1, E2, E3. rewrite (proj2 (attr_words_none _) E4). cbn [new_class bind]. rewrite C. cbn [add_elems].
    destruct Tx as [Tx|Tx]; rewrite Tx; cbn [bind]; eexists; reflexivity.
  - rewrite (combinator_not_class _ _ T), (proj2 (combinator_iff _ _) T).
    assert (G : exists l', Forall2 (fun x k => parse_class x = Ok k) (x_children e) l').
    { clear - IH F. rewrite Forall_forall in IH. induction F as [|x k xs ks F1 F2 IHF]; [eexists; constructor|].
      destruct (IH x (or_introl eq_refl) k F1) as [k' Hk]. destruct IHF as [ks' Hks]; [intros y Hy; apply IH; right; exact Hy|]. eexists. constructor; eassumption. }
    destruct G as [l' G]. exists (ClComb (x_get e "name") op l'). apply add_classes_iff; [destruct op; cbn; lia || exact I|]. exists l'. cbn [app].
    repeat split; [exact G|]. replace (length l') with (length l); [exact R|].
    assert (L1 : length (x_children e) = length l) by (clear - F; induction F; cbn [length]; congruence).
    assert (L2 : length (x_children e) = length l') by (clear - G; induction G; cbn [length]; congruence). congruence.
Qed.
(** Exactly. *)
Theorem class_reading : forall e,
  (forall c, parse_class e = Ok c -> class_of e c) /\
  (forall c, class_of e c -> exists c', parse_class e = Ok c' /\ same_class c c').
Proof.
  intro e. split; [exact (class_read e)|]. intros c H. destruct (class_readable e c H) as [c' E]. exists c'. split; [exact E|].
  exact (class_of_fun e c H c' (class_read e c' E)).
Qed.
