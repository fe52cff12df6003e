(** Tolerant and strict reading of the same document. *)
From Verif Require Import Base BaseFacts UtilsModel CharModel RefModel LgrModel Rfc7940Model MetaModel SerialModel ClassModel RuleModel
  ValidateModel RulesXmlModel DocModel.
Open Scope string_scope.
Open Scope list_scope.

Lemma collect_forced : forall m refs l, collect_refs m false refs = Ok l -> collect_refs m true refs = Ok l.
Proof.
  intros m refs. induction refs as [|r refs IH]; intros l H; [exact H|]. cbn [collect_refs] in *.
  destruct (dmem String.eqb r (rm_refs m)); [|discriminate]. destruct (collect_refs m false refs) as [k|e] eqn:E; [|discriminate].
  rewrite (IH k eq_refl). exact H.
Qed.
Lemma validating_forced : forall vr override a c x, check_validating vr override false a c = Ok x -> exists y, check_validating vr override true a c = Ok y.
Proof.
  intros vr override a c x H. unfold check_validating in *. destruct vr as [v|]; [|eauto]. revert x H.
  induction c as [|y c IH]; intros x H; [eauto|]. cbn [check_against] in *. destruct (check_cp v [y]) as [b|e]; cbn [bind] in *; [|discriminate].
  cbn [negb] in *. destruct b; destruct override; cbn in *; try discriminate; eauto.
Qed.

Lemma add_cp_forced : forall g c cm rf tg w nw vr ov g', lgr_add_cp g c cm rf tg w nw vr ov false = (g', Ok tt) ->
  lgr_add_cp g c cm rf tg w nw vr ov true = (g', Ok tt).
Proof.
  intros g c cm rf tg w nw vr ov g' H. unfold lgr_add_cp in *. destruct (check_convert g c) as [c'|e]; [|discriminate].
  cbn [negb] in *. rewrite !andb_false_l. destruct (true && is_some w && is_some nw)%bool; [discriminate|].
  destruct (check_validating vr ov false c' c') as [x|e] eqn:Ev; [|discriminate].
  destruct (validating_forced _ _ _ _ _ Ev) as [y ->]. destruct (collect_refs (lg_refs g) false rf) as [l|e] eqn:El; [|discriminate].
  rewrite (collect_forced _ _ _ El). rewrite !andb_false_r. rewrite !andb_true_r in H.
  destruct (has_dup l); [discriminate|]. destruct (Nat.ltb 1 (length c') && Nat.ltb 0 (length tg))%bool; [discriminate|].
  destruct (has_dup tg); [discriminate|]. exact H.
Qed.
Lemma add_variant_forced : forall g c v ty w nw cm rf vr ov g', lgr_add_variant g c v ty w nw cm rf vr ov false = (g', Ok tt) ->
  lgr_add_variant g c v ty w nw cm rf vr ov true = (g', Ok tt).
Proof.
  intros g c v ty w nw cm rf vr ov g' H. unfold lgr_add_variant in *.
  destruct (bind (check_convert g c) (fun c => bind (check_convert g v) (fun v => Ok (c, v)))) as [[c' v']|e]; [|discriminate].
  cbn [negb] in *. rewrite !andb_false_l. destruct (true && is_some w && is_some nw)%bool; [discriminate|].
  destruct (check_validating vr ov false c' v') as [x|e] eqn:Ev; [|discriminate].
  destruct (validating_forced _ _ _ _ _ Ev) as [y ->]. destruct (collect_refs (lg_refs g) false rf) as [l|e] eqn:El; [|discriminate].
  rewrite (collect_forced _ _ _ El). rewrite !andb_false_r. rewrite !andb_true_r in H.
  destruct (has_dup l); [discriminate|]. exact H.
Qed.
Lemma select_forced : forall g ov l k, select_cps g ov false l = Ok k -> select_cps g ov true l = Ok k.
Proof.
  intros g ov l. induction l as [|[x s] l IH]; intros k H; [exact H|]. cbn [select_cps negb] in *. rewrite andb_false_r. rewrite andb_true_r in H.
  assert (K : forall k, bind (select_cps g ov false l) (fun r => Ok (x :: r)) = Ok k -> bind (select_cps g ov true l) (fun r => Ok (x :: r)) = Ok k).
  { intros k' K. destruct (select_cps g ov false l) as [r|e]; [|discriminate]. rewrite (IH r eq_refl). exact K. }
  destruct s as [e|]; [|apply K; exact H].
  destruct e; try discriminate H; try (destruct (lg_raise g); cbn [negb] in *; try discriminate H; apply K; exact H).
  destruct ov; cbn [negb] in *; [apply K; exact H|discriminate].
Qed.
Lemma add_range_forced : forall g f la cm rf tg w nw vr ov g', lgr_add_range g f la cm rf tg w nw vr ov false = (g', Ok tt) ->
  lgr_add_range g f la cm rf tg w nw vr ov true = (g', Ok tt).
Proof.
  intros g f la cm rf tg w nw vr ov g' H. unfold lgr_add_range in *. destruct (N.ltb la f); [discriminate|].
  cbn [negb] in *. rewrite !andb_false_l. destruct (true && is_some w && is_some nw)%bool; [discriminate|].
  destruct (check_range g f la vr) as [st|e]; [|discriminate].
  destruct (select_cps g ov false st) as [k|e] eqn:Es; [|discriminate]. rewrite (select_forced _ _ _ _ Es).
  destruct (collect_refs (lg_refs g) false rf) as [l|e] eqn:El; [|discriminate].
  rewrite (collect_forced _ _ _ El). rewrite !andb_false_r. rewrite !andb_true_r in H.
  destruct (has_dup l); [discriminate|]. destruct (has_dup tg); [discriminate|]. exact H.
Qed.

(** ** <data> *)
Lemma attempt_strict : forall r p g' r', attempt false r p = (g', r', Ok tt) -> p = (g', Ok tt) /\ r' = r.
Proof.
  intros r [g x] g' r' H. unfold attempt in H. destruct x as [[]|e]; [injection H as <- <-; auto|].
  destruct (is_lgr_exception e); discriminate.
Qed.
Lemma attempt_ok : forall force r g, attempt force r (g, Ok tt) = (g, r, Ok tt).
Proof. reflexivity. Qed.
Lemma vars_forced : forall vs g r c g' r', process_vars false g r c vs = (g', r', Ok tt) -> process_vars true g r c vs = (g', r', Ok tt).
Proof.
  induction vs as [|v vs IH]; intros g r c g' r' H; [exact H|]. cbn [process_vars] in *. destruct (parse_cps (ve_cp v)) as [vc|e]; [|discriminate].
  destruct (attempt false r _) as [[g1 r1] [[]|e]] eqn:E in H; [|discriminate]. apply attempt_strict in E. destruct E as [E ->].
  apply add_variant_forced in E. rewrite E, attempt_ok. apply IH. exact H.
Qed.
Lemma loop_forced : forall l g r prev g' r', process_data_loop false g r prev l = (g', r', Ok tt) -> process_data_loop true g r prev l = (g', r', Ok tt).
Proof.
  induction l as [|e l IH]; intros g r prev g' r' H; [exact H|]. destruct e as [cp a vs|f la a vs|]; cbn [process_data_loop] in *.
  - destruct (parse_cps cp) as [c|e]; [|discriminate].
    destruct (attempt false _ _) as [[g1 r1] [[]|e]] eqn:E in H; [|discriminate]. apply attempt_strict in E. destruct E as [E ->].
    apply add_cp_forced in E. rewrite E, attempt_ok. destruct (process_vars false g1 _ c vs) as [[g2 r2] [[]|e]] eqn:Ev in H; [|discriminate].
    apply vars_forced in Ev. rewrite Ev. apply IH. exact H.
  - destruct (parse_cp f) as [x|e]; [|discriminate]. destruct (parse_cp la) as [y|e]; [|discriminate].
    destruct (attempt false _ _) as [[g1 r1] [[]|e]] eqn:E in H; [|discriminate]. apply attempt_strict in E. destruct E as [E ->].
    apply add_range_forced in E. rewrite E, attempt_ok. apply IH. exact H.
  - apply IH. exact H.
Qed.
Lemma data_forced : forall g r l g' r', process_data false g r l = (g', r', Ok tt) -> process_data true g r l = (g', r', Ok tt).
Proof.
  intros g r l g' r' H. unfold process_data in *. destruct (process_data_loop false g r [] l) as [[g1 r1] [[]|e]] eqn:E; [|discriminate].
  rewrite (loop_forced _ _ _ _ _ _ E). exact H.
Qed.

(** ** <meta> *)
Lemma date_forced : forall d x, validate_date d false = Ok x -> validate_date d true = Ok x.
Proof.
  intros d x H. unfold validate_date, invalid_date in *. destruct (split_on 45 d) as [|a [|b [|c [|? ?]]]]; try discriminate.
  destruct (mapM_res (py_int 10) [a; b; c]) as [[|y [|m [|dd [|? ?]]]]|e]; try discriminate; [|destruct e; discriminate].
  destruct (date_object y m dd) as [[[? ?] ?]|e]; [|destruct e; discriminate].
  destruct (cps_eqb _ d); [exact H|discriminate].
Qed.
Lemma date_free : forall d x, validate_date d true = Ok x -> x = d.
Proof.
  intros d x H. unfold validate_date, invalid_date in H.
  repeat match type of H with
  | context [match ?t with _ => _ end] => destruct t; try discriminate; try (injection H as <-; reflexivity)
  end.
Qed.
Lemma meta_elem_forced : forall lc dig m rm e m' rm', process_meta_elem lc dig false m rm e = (m', rm', Ok tt) ->
  process_meta_elem lc dig true m rm e = (m', rm', Ok tt).
Proof.
  intros lc dig m rm e m' rm' H.
  assert (D : forall (set : metadata -> option cps -> metadata) t,
     needs_text m t (fun d => match validate_date d false with Ok d => (set m (Some d), Ok tt) | Raise e => (m, Raise e) end) = (m', Ok tt) ->
     needs_text m t (fun d => match validate_date d true with Ok d => (set m (Some d), Ok tt) | Raise e => (m, Raise e) end) = (m', Ok tt)).
  { intros set [d|] K; [|discriminate]. cbn [needs_text] in *. destruct (validate_date d false) as [x|e'] eqn:E; [|discriminate].
    rewrite (date_forced _ _ E). exact K. }
  assert (T : forall p q : metadata * res unit, (p = (m', Ok tt) -> q = (m', Ok tt)) -> (fst p, rm, snd p) = (m', rm', Ok tt) -> (fst q, rm, snd q) = (m', rm', Ok tt)).
  { intros [a b] [c d] K K'. cbn [fst snd] in *. injection K' as -> <- ->. specialize (K eq_refl). injection K as -> ->. reflexivity. }
  destruct e; cbn [process_meta_elem] in *; try exact H.
  - revert H. apply T. apply (D set_md_date).
  - revert H. apply T. apply (D set_md_start).
  - revert H. apply T. apply (D set_md_end).
  - revert H. apply T. intro K. match goal with |- needs_text _ ?o _ = _ => destruct o as [v|] end; [|discriminate]. cbn [needs_text] in *. unfold md_set_unicode_version in *.
    destruct (version_prefix dig v); [exact K|discriminate].
  - revert H. apply T. intro K. unfold md_add_language in *. destruct (lc _) as [ok|]; [|discriminate].
    destruct ok; cbn [negb andb] in *; [exact K|discriminate].
Qed.
Lemma meta_loop_forced : forall lc dig l m rm m' rm', process_meta_loop lc dig false m rm l = (m', rm', Ok tt) ->
  process_meta_loop lc dig true m rm l = (m', rm', Ok tt).
Proof.
  intros lc dig l. induction l as [|e l IH]; intros m rm m' rm' H; [exact H|]. cbn [process_meta_loop] in *.
  destruct (process_meta_elem lc dig false m rm e) as [[m1 rm1] [[]|x]] eqn:E; [|discriminate].
  rewrite (meta_elem_forced _ _ _ _ _ _ _ E). apply IH. exact H.
Qed.
Lemma meta_forced : forall lc dig l m' rm', process_meta lc dig false l = (m', rm', Ok tt) -> process_meta lc dig true l = (m', rm', Ok tt).
Proof.
  intros lc dig l m' rm' H. unfold process_meta in *.
  destruct (process_meta_loop lc dig false new_metadata empty_refman l) as [[m1 rm1] [[]|x]] eqn:E; [|discriminate].
  rewrite (meta_loop_forced _ _ _ _ _ _ _ E). exact H.
Qed.
Lemma parse_forced : forall lc dig db allow x p, parse_document lc dig db allow false x = (p, Ok tt) -> parse_document lc dig db allow true x = (p, Ok tt).
Proof.
  intros lc dig db allow x p H. unfold parse_document in *. destruct (process_meta lc dig false (x_meta x)) as [[m rm] [[]|e]] eqn:E; [|discriminate].
  rewrite (meta_forced _ _ _ _ _ E). destruct (process_data false _ _ (x_data x)) as [[g r] [[]|e]] eqn:Ed; [|discriminate].
  rewrite (data_forced _ _ _ _ _ Ed). exact H.
Qed.

(** ** <rules> *)
Lemma rules_forced : forall db fuel l g s p, process_rules db fuel false l g s = Ok p -> process_rules db fuel true l g s = Ok p.
Proof.
  intros db fuel l. induction l as [|e l IH]; intros g s p H; [exact H|]. cbn [process_rules] in *.
  assert (K : forall p, read_elem db fuel false e g s = Ok p -> read_elem db fuel true e g s = Ok p).
  { intros q K. unfold read_elem in *. destruct (class_tag e).
    - unfold read_class in *. destruct (parse_class e) as [c|x]; [|discriminate]. cbn [bind] in *. unfold add_class in *.
      destruct (validate_class (ru_classes g) true c); [exact K|discriminate].
    - destruct (has_tag "rule" e); [|exact K]. unfold read_rule in *.
      destruct (parse_rule db (ru_classes g) (ru_rules g) fuel e s) as [c|x]; [|discriminate]. cbn [bind] in *. unfold add_rule in *.
      destruct (validate_rule (ru_classes g) (ru_rules g) true (snd c)); [exact K|discriminate]. }
  destruct (read_elem db fuel false e g s) as [q|x]; [|discriminate]. rewrite (K q eq_refl). cbn [bind] in *. apply IH. exact H.
Qed.

(** A document that is read without force is read the same with force. *)
Theorem strict_is_tolerant : forall lc dig db fuel allow d x, read_document lc dig db fuel allow false d = Ok x ->
  read_document lc dig db fuel allow true d = Ok x.
Proof.
  intros lc dig db fuel allow d x H. unfold read_document in *. destruct (dc_meta d) as [ml|]; [|exact H].
  destruct (process_meta lc dig false ml) as [[m rm] [[]|e]] eqn:E; [|discriminate].
  rewrite (meta_forced _ _ _ _ _ E). destruct (process_data false _ _ (dc_data d)) as [[g r] [[]|e]] eqn:Ed; [|discriminate].
  rewrite (data_forced _ _ _ _ _ Ed).
  destruct (process_rules _ fuel false _ _ _) as [p|e] eqn:Er in H; [|discriminate]. rewrite (rules_forced _ _ _ _ _ _ Er). exact H.
Qed.
Lemma refused_anyway : forall lc dig db fuel allow d e, read_document lc dig db fuel allow true d = Raise e ->
  exists e', read_document lc dig db fuel allow false d = Raise e'.
Proof.
  intros lc dig db fuel allow d e H. destruct (read_document lc dig db fuel allow false d) as [x|e'] eqn:E; [|eauto].
  apply strict_is_tolerant in E. rewrite E in H. discriminate.
Qed.
