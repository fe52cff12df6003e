(** The same data read under another database. *)
From Verif Require Import Base BaseFacts CharModel RepSpec RepProofs LgrModel LgrSpec LgrProofs LgrReach LgrRange LgrInv RefModel MetaModel Rfc7940Model SerialModel SerialSpec SerialProofs
  ValidateSpec PopulateModel PopulateProofs AgainRead DocModel DocFinal.
Open Scope string_scope.
Open Scope list_scope.
Open Scope N_scope.

Definition under_db (db : option unidb) (g : lgr) : lgr :=
  mkLgr (lg_rep g) db (lg_raise g) (lg_types g) (lg_refs g) (lg_tags g).

Section Move.
  Variable db : option unidb.
  Notation mv := (under_db db).
  Lemma move_tags : forall tg ks g, mv (fold_left (fun g x => add_cp_to_tag_classes g [x] tg) ks g) = fold_left (fun g x => add_cp_to_tag_classes g [x] tg) ks (mv g).
  Proof. intros tg. induction ks as [|k ks IH]; intro g; [reflexivity|]. cbn [fold_left]. rewrite IH. reflexivity. Qed.
  Lemma move_convert : forall g c x, valid_in db (lg_raise g) c -> check_convert g c = Ok x -> x = c /\ check_convert (mv g) c = Ok c.
  Proof.
    intros g c x V H. unfold check_convert, check_convert_with in *. cbn [under_db lg_db lg_raise]. destruct c as [|y c]; [discriminate|].
    split. { destruct (lg_db g) as [d|]; [|congruence]. destruct (find _ (y :: c)); [destruct (lg_raise g); [discriminate|congruence]|congruence]. }
    destruct db as [d|]; [|reflexivity]. destruct (find _ (y :: c)) as [z|] eqn:F; [|reflexivity]. destruct (lg_raise g) eqn:R; [|reflexivity].
    apply find_some in F. destruct F as [F1 F2]. destruct V as [V|V]; [discriminate|]. rewrite (V z d F1 eq_refl) in F2. discriminate.
  Qed.
  Lemma move_add_cp : forall g c cm rf tg w nw g', valid_in db (lg_raise g) c ->
    lgr_add_cp g c cm rf tg w nw None false false = (g', Ok tt) -> lgr_add_cp (mv g) c cm rf tg w nw None false false = (mv g', Ok tt).
  Proof.
    intros g c cm rf tg w nw g' V H. unfold lgr_add_cp in *. destruct (check_convert g c) as [x|] eqn:C; [|discriminate]. destruct (move_convert _ _ _ V C) as [-> C']. rewrite C'.
    cbn [check_validating] in *. destruct (_ && _)%bool; [discriminate|]. cbn [under_db lg_refs lg_rep]. destruct (collect_refs _ _ _); [|discriminate].
    destruct (_ && _)%bool; [discriminate|]. destruct (_ && _)%bool; [discriminate|]. destruct (_ && _)%bool; [discriminate|]. destruct (rep_add_char _ _ _ _ _ _ _) as [r [q|]]; [|discriminate].
    injection H as <-. reflexivity.
  Qed.
  Lemma move_add_variant : forall g c v ty w nw cm rf g', valid_in db (lg_raise g) c -> valid_in db (lg_raise g) v ->
    lgr_add_variant g c v ty w nw cm rf None false false = (g', Ok tt) -> lgr_add_variant (mv g) c v ty w nw cm rf None false false = (mv g', Ok tt).
  Proof.
    intros g c v ty w nw cm rf g' V1 V2 H. unfold lgr_add_variant in *. destruct (check_convert g c) as [x|] eqn:C; cbn [bind] in H; [|discriminate].
    destruct (check_convert g v) as [y|] eqn:D; cbn [bind] in H; [|discriminate]. destruct (move_convert _ _ _ V1 C) as [-> C']. destruct (move_convert _ _ _ V2 D) as [-> D']. rewrite C', D'. cbn [bind].
    cbn [check_validating] in *. destruct (_ && _)%bool; [discriminate|]. cbn [under_db lg_refs lg_rep]. destruct (collect_refs _ _ _); [|discriminate].
    destruct (_ && _)%bool; [discriminate|]. destruct (rep_add_variant _ _ _) as [r [q|]]; [|discriminate]. injection H as <-. reflexivity.
  Qed.
  (** A range is inserted whole or not at all. *)
  Lemma select_whole : forall g st ks, select_cps g false false st = Ok ks -> ks = map fst st.
  Proof.
    intros g. induction st as [|[x s] st IH]; intros ks H; cbn [select_cps] in H; [injection H as <-; reflexivity|].
    assert (K : forall r, bind (select_cps g false false st) (fun r => Ok (x :: r)) = Ok r -> r = x :: map fst st).
    { intros r E. destruct (select_cps g false false st) as [ks'|]; cbn [bind] in E; [|discriminate]. injection E as <-. rewrite (IH ks' eq_refl). reflexivity. }
    cbn [map fst]. destruct s as [[]|]; cbn [negb andb] in H; try discriminate; try (exact (K _ H)). destruct (lg_raise g); cbn [negb] in H; [discriminate|exact (K _ H)].
  Qed.
  Lemma statuses_fst : forall g vr l st, mapM_res (fun x => bind (cp_status g vr x) (fun s => Ok (x, s))) l = Ok st -> map fst st = l.
  Proof.
    intros g vr. induction l as [|x l IH]; intros st H; cbn [mapM_res] in H; [injection H as <-; reflexivity|].
    destruct (cp_status g vr x) as [s|]; cbn [bind] in H; [|discriminate]. destruct (mapM_res _ l) as [st'|] eqn:E; cbn [bind] in H; [|discriminate]. injection H as <-. cbn [map fst]. rewrite (IH _ eq_refl). reflexivity.
  Qed.
  Lemma select_absent : forall g l, (forall x, In x l -> lk (lg_rep g) [x] = None) -> (forall x, In x l -> valid_in (lg_db g) (lg_raise g) [x]) ->
    exists st, mapM_res (fun x => bind (cp_status g None x) (fun s => Ok (x, s))) l = Ok st /\ select_cps g false false st = Ok l.
  Proof.
    intros g. induction l as [|x l IH]; intros Ha Hv; [exists []; split; reflexivity|]. destruct IH as [st [E1 E2]]; [intros; apply Ha; right; assumption|intros; apply Hv; right; assumption|].
    cbn [mapM_res]. rewrite E1. unfold cp_status, check_convert_with. cbn [find].
    assert (G : bind (rep_contains (lg_rep g) [x]) (fun b => Ok (if b then Some (CharAlreadyExists [x]) else None)) = Ok (@None exn)).
    { rewrite rep_contains_lk by discriminate. rewrite (Ha x (or_introl eq_refl)). reflexivity. }
    destruct (lg_db g) as [d|] eqn:D; [destruct (negb (db_idna_valid d x)) eqn:N|]; cbn [bind negb]; try rewrite G; cbn [bind]; eexists; (split; [reflexivity|]); cbn [select_cps]; rewrite E2; cbn [bind]; try reflexivity.
    destruct (lg_raise g) eqn:R; [|reflexivity]. exfalso. destruct (Hv x (or_introl eq_refl)) as [K|K]; [discriminate|]. rewrite (K x d (or_introl eq_refl) eq_refl) in N. discriminate.
  Qed.
  Lemma select_each : forall g st ks, select_cps g false false st = Ok ks -> forall x s, In (x, s) st -> s = None \/ exists c, s = Some (CharInvalidIdnaProperty c) /\ lg_raise g = false.
  Proof.
    intros g. induction st as [|[y t] st IH]; intros ks H x s Hx; [destruct Hx|]. cbn [select_cps] in H.
    assert (K : forall r, bind (select_cps g false false st) (fun r => Ok (y :: r)) = Ok r -> exists ks', select_cps g false false st = Ok ks').
    { intros r E. destruct (select_cps g false false st) as [ks'|]; cbn [bind] in E; [|discriminate]. eauto. }
    destruct t as [[]|]; cbn [negb andb] in H; try discriminate.
    - destruct (lg_raise g) eqn:R; cbn [negb] in H; [discriminate|]. destruct (K _ H) as [ks' E]. destruct Hx as [Hx|Hx]; [injection Hx as <- <-; right; eauto|]. exact (IH _ E _ _ Hx).
    - destruct (K _ H) as [ks' E]. destruct Hx as [Hx|Hx]; [injection Hx as <- <-; left; reflexivity|]. exact (IH _ E _ _ Hx).
  Qed.
  Lemma statuses_in : forall g vr l st x, mapM_res (fun x => bind (cp_status g vr x) (fun s => Ok (x, s))) l = Ok st -> In x l -> exists s, In (x, s) st /\ cp_status g vr x = Ok s.
  Proof.
    intros g vr. induction l as [|y l IH]; intros st x H Hx; [destruct Hx|]. cbn [mapM_res] in H.
    destruct (cp_status g vr y) as [s|] eqn:E; cbn [bind] in H; [|discriminate]. destruct (mapM_res _ l) as [st'|] eqn:E2; cbn [bind] in H; [|discriminate]. injection H as <-.
    destruct Hx as [<-|Hx]; [exists s; split; [left; reflexivity|exact E]|]. destruct (IH _ _ eq_refl Hx) as [s' [H1 H2]]. exists s'. split; [right; exact H1|exact H2].
  Qed.
  Lemma range_whole : forall g f l cm rf tg w nw g', lgr_add_range g f l cm rf tg w nw None false false = (g', Ok tt) -> forall x, f <= x <= l -> to_insert g None false false x.
  Proof.
    intros g f l cm rf tg w nw g' H x Hx. apply nrange_In in Hx. unfold lgr_add_range in H. destruct (N.ltb l f) eqn:Lt; [discriminate|]. destruct (_ && _)%bool; [discriminate|]. unfold check_range in H. rewrite Lt in H.
    destruct (mapM_res _ (nrange f l)) as [st|] eqn:M; [|discriminate]. destruct (select_cps g false false st) as [ks|] eqn:S; [|discriminate]. clear H.
    destruct (statuses_in _ _ _ _ x M Hx) as [s [Hs Es]].
    assert (D : check_convert_with (lg_db g) true [x] = Ok [x] /\ ~ idna_invalid g x \/ check_convert_with (lg_db g) true [x] = Raise (CharInvalidIdnaProperty [x]) /\ idna_invalid g x).
    { unfold check_convert_with, idna_invalid. destruct (lg_db g) as [d|]; [|left; split; [reflexivity|intros [d [K _]]; discriminate]]. cbn [find]. destruct (db_idna_valid d x) eqn:E; cbn [negb].
      - left. split; [reflexivity|]. intros [d' [K1 K2]]. congruence.
      - right. split; [reflexivity|]. exists d. auto. }
    unfold cp_status in Es. destruct D as [[D1 D2]|[D1 D2]]; rewrite D1 in Es.
    - cbn [bind negb] in Es. rewrite rep_contains_lk in Es by discriminate. destruct (lk (lg_rep g) [x]) as [chx|] eqn:E; cbn [bind] in Es; injection Es as <-.
      + destruct (select_each _ _ _ S _ _ Hs) as [K|[c [K _]]]; discriminate.
      + left. apply RSt_ok; [exact D2|discriminate|]. rewrite present_lk. congruence.
    - injection Es as <-. destruct (select_each _ _ _ S _ _ Hs) as [K|[c [K R]]]; [discriminate|]. right. right. split; [exact D2|exact R].
  Qed.
  Lemma move_add_range : forall g f l cm rf tg w nw g', wf_rep (lg_rep g) -> (forall x, f <= x <= l -> valid_in db (lg_raise g) [x]) ->
    lgr_add_range g f l cm rf tg w nw None false false = (g', Ok tt) -> lgr_add_range (mv g) f l cm rf tg w nw None false false = (mv g', Ok tt).
  Proof.
    intros g f l cm rf tg w nw g' Hwf V H.
    assert (A : forall x, In x (nrange f l) -> lk (lg_rep g) [x] = None).
    { intros x Hx. apply nrange_In in Hx. destruct (add_range_spec g f l cm rf tg w nw None false false Hwf) as [r [_ K2]]. cbv zeta in K2. pose proof (range_whole _ _ _ _ _ _ _ _ _ H x Hx) as T. rewrite H in K2. destruct r as [e|]; [destruct K2; discriminate|].
      destruct K2 as [[_ [K2 _]]|[z [K2 _]]]; [|discriminate]. destruct (lk (lg_rep g) [x]) as [chx|] eqn:E; [|reflexivity]. exfalso. apply (K2 x (conj Hx T)). apply present_lk. congruence. }
    destruct (select_absent (mv g) (nrange f l)) as [st' [M' S']]; [exact A|intros x Hx; apply nrange_In in Hx; exact (V x Hx)|].
    unfold lgr_add_range, check_range in *. cbn [under_db lg_rep lg_refs] in *. destruct (N.ltb l f) eqn:Lt; [discriminate|]. destruct (_ && _)%bool; [discriminate|].
    unfold under_db in M', S' |- *. cbn [under_db lg_rep lg_refs lg_raise lg_db lg_types lg_tags] in *.
    destruct (mapM_res (fun x => bind (cp_status g None x) _) (nrange f l)) as [st|] eqn:M; [|discriminate]. destruct (select_cps g false false st) as [ks|] eqn:S; [|discriminate].
    pose proof (select_whole _ _ _ S) as W. rewrite (statuses_fst _ _ _ _ M) in W. subst ks. rewrite M', S'.
    destruct (collect_refs _ _ _); [|discriminate]. destruct (_ && _)%bool; [discriminate|]. destruct (_ && _)%bool; [discriminate|]. destruct (insert_list _ _ _ _ _ _ _) as [r [q|]]; [|discriminate].
    injection H as <-. pose proof (move_tags tg (nrange f l) (set_rep g r)) as K. unfold under_db in K. rewrite K. reflexivity.
  Qed.

  (** ** Whole sections *)
  Definition pair_ok (ra : bool) (g : lgr) : Prop :=
    (forall c, lk (lg_rep g) c <> None -> valid_in db ra c) /\ (forall a b, has_target (lg_rep g) a b -> valid_in db ra b).
  Definition within (g g' : lgr) : Prop :=
    (forall c, lk (lg_rep g) c <> None -> lk (lg_rep g') c <> None) /\ (forall a b, has_target (lg_rep g) a b -> has_target (lg_rep g') a b).
  Lemma within_refl : forall g, within g g.
  Proof. intro g. split; auto. Qed.
  Lemma within_trans : forall a b c, within a b -> within b c -> within a c.
  Proof. intros a b c [A1 A2] [B1 B2]. split; auto. Qed.
  Lemma within_ok : forall ra g g', within g g' -> pair_ok ra g' -> pair_ok ra g.
  Proof. intros ra g g' [A1 A2] [B1 B2]. split; [auto|]. intros a b H. exact (B2 a b (A2 _ _ H)). Qed.
  Lemma within_lookup : forall g g', (forall c ch, lookup (lg_rep g) c = Some ch -> lookup (lg_rep g') c = Some ch) -> within g g'.
  Proof.
    intros g g' H. split.
    - intros c Hc. rewrite <- lookup_lk in Hc |- *. destruct (lookup (lg_rep g) c) as [ch|] eqn:E; [|congruence]. rewrite (H _ _ E). discriminate.
    - intros a b [v [ch [H1 H2]]]. exists v, ch. split; [exact (H _ _ H1)|exact H2].
  Qed.
  Lemma add_cp_within : forall g c cm rf tg w nw g', lgr_add_cp g c cm rf tg w nw None false false = (g', Ok tt) -> within g g' /\ lk (lg_rep g') c <> None /\ lg_raise g' = lg_raise g.
  Proof.
    intros g c cm rf tg w nw g' H. destruct (add_cp_spec g c cm rf tg w nw None false false) as [r [K1 K2]]. rewrite H in K2. destruct r as [e|]; [destruct K2; discriminate|].
    destruct K2 as [_ [K2 [K3 [_ [_ [K4 _]]]]]]. split; [|split; [rewrite <- lookup_lk, K2; discriminate|exact K4]].
    apply within_lookup. intros d ch Hd. destruct (cps_eqb d c) eqn:E; [|rewrite K3; [exact Hd|intros ->; rewrite cps_eqb_refl in E; discriminate]].
    apply cps_eqb_eq in E. subst d. exfalso. unfold add_cp_checks in K1. cbn [first_failing] in K1. do 8 (destruct K1 as [[e [_ K]]|[_ K1]]; [discriminate|]).
    destruct K1 as [[e [_ K]]|[K _]]; [discriminate|]. apply (K (CharAlreadyExists c)). split; [|reflexivity]. apply present_lk. rewrite <- lookup_lk. congruence.
  Qed.
  Lemma add_variant_within : forall g c v ty w nw cm rf g', lgr_reachable g -> lgr_add_variant g c v ty w nw cm rf None false false = (g', Ok tt) ->
    within g g' /\ lk (lg_rep g') c <> None /\ has_target (lg_rep g') c v /\ lg_raise g' = lg_raise g.
  Proof.
    intros g c v ty w nw cm rf g' Hre H.
    assert (R : lg_raise g' = lg_raise g). { pose proof (step_db g (LAddVariant c v ty w nw cm rf None false false)) as D. cbn [lgr_step] in D. rewrite H in D. apply D. discriminate. }
    assert (C : exists ch, lk (lg_rep g) c = Some ch /\ check_convert g v = Ok v).
    { unfold lgr_add_variant in H. destruct (check_convert g c) as [x|] eqn:C; cbn [bind] in H; [|discriminate]. destruct (check_convert g v) as [y|] eqn:D; cbn [bind] in H; [|discriminate].
      destruct (check_convert_cases g c) as [[e [K _]]|[K [Hne _]]]; rewrite K in C; [discriminate|]. injection C as <-.
      destruct (check_convert_cases g v) as [[e [K2 _]]|[K2 _]]; rewrite K2 in D; [discriminate|]. injection D as <-.
      destruct (_ && _)%bool; [discriminate|]. cbn [check_validating] in H. destruct (collect_refs _ _ _) as [rs|]; [|discriminate]. destruct (_ && _)%bool; [discriminate|].
      unfold rep_add_variant in H. rewrite get_char_lk in H by exact Hne. destruct (lk (lg_rep g) c) as [ch|]; [exists ch; split; reflexivity|]. discriminate. }
    destruct C as [ch [C1 C2]]. pose proof (put_variant_spec g c ch v ty w nw cm rf Hre C1 C2) as P. unfold put_variant in P. rewrite H in P. destruct P as [_ [[_ [_ [ch' [U [S V]]]]]|[e [P _]]]]; [|discriminate].
    destruct U as [_ U]. assert (Uc : lk (lg_rep g') c = Some ch') by (rewrite U, cps_eqb_refl; reflexivity).
    split; [|split; [congruence|split; [|exact R]]].
    - split.
      + intros x Hx. rewrite U. destruct (cps_eqb x c); [discriminate|exact Hx].
      + intros a b [x [k [H1 [H2 H3]]]]. rewrite lookup_lk in H1. unfold has_target, mapping. rewrite lookup_lk, U. destruct (cps_eqb a c) eqn:E; [|exists x, k; auto].
        apply cps_eqb_eq in E. subst a. rewrite C1 in H1. injection H1 as <-. exists x, ch'. split; [reflexivity|]. split; [apply V; right; exact H2|exact H3].
    - exists (mkVariant v ty w nw cm rf), ch'. rewrite lookup_lk. split; [exact Uc|]. split; [apply V; left; reflexivity|reflexivity].
  Qed.
  Lemma add_range_within : forall g f l cm rf tg w nw g', wf_rep (lg_rep g) -> lgr_add_range g f l cm rf tg w nw None false false = (g', Ok tt) ->
    within g g' /\ (forall x, f <= x <= l -> lk (lg_rep g') [x] <> None) /\ lg_raise g' = lg_raise g.
  Proof.
    intros g f l cm rf tg w nw g' Hwf H.
    assert (R : lg_raise g' = lg_raise g). { pose proof (step_db g (LAddRange f l cm rf tg w nw None false false)) as D. cbn [lgr_step] in D. rewrite H in D. apply D. discriminate. }
    pose proof (range_whole g f l cm rf tg w nw g' H) as T. destruct (add_range_spec g f l cm rf tg w nw None false false Hwf) as [r [_ K2]]. cbv zeta in K2. rewrite H in K2. destruct r as [e|]; [destruct K2; discriminate|].
    destruct K2 as [[_ [K2 [K3 K4]]]|[z [K2 _]]]; [|discriminate]. split; [|split; [|exact R]].
    - apply within_lookup. intros c ch Hc. destruct (lookup (lg_rep g') c) as [ch'|] eqn:E.
      + rewrite <- E, <- Hc. apply K4. intros y -> Hy. apply (K2 y Hy). apply present_lk. rewrite <- lookup_lk. congruence.
      + rewrite <- E, <- Hc. apply K4. intros y -> Hy. apply (K2 y Hy). apply present_lk. rewrite <- lookup_lk. congruence.
    - intros x Hx. destruct (K3 x (conj Hx (T x Hx))) as [k K]. rewrite <- lookup_lk, K. discriminate.
  Qed.
  Lemma vars_within : forall vs g r c g' r', lgr_reachable g -> process_vars false g r c vs = (g', r', Ok tt) ->
    within g g' /\ lgr_reachable g' /\ lg_raise g' = lg_raise g /\
    (pair_ok (lg_raise g) g' -> valid_in db (lg_raise g) c -> process_vars false (mv g) r c vs = (mv g', r', Ok tt)).
  Proof.
    induction vs as [|v vs IH]; intros g r c g' r' Hre H; cbn [process_vars] in H |- *.
    - injection H as <- <-. split; [apply within_refl|]. split; [exact Hre|]. split; [reflexivity|]. reflexivity.
    - destruct (parse_cps (ve_cp v)) as [vc|]; [|discriminate]. destruct (attempt false r _) as [[g1 r1] [[]|e]] eqn:A; [|discriminate].
      pose proof A as A'. apply attempt_ok in A'. destruct (add_variant_within _ _ _ _ _ _ _ _ _ Hre A') as [W [Wc [Wt Wr]]].
      assert (Hre1 : lgr_reachable g1). { pose proof (lgr_reachable_step g (LAddVariant c vc (ve_type v) (ve_when v) (ve_not_when v) (ve_comment v) (attr_words (ve_ref v)) None false false) Hre) as K. cbn [lgr_step] in K. rewrite A' in K. exact K. }
      destruct (IH _ _ _ _ _ Hre1 H) as [W2 [Hre2 [Wr2 K]]]. split; [exact (within_trans _ _ _ W W2)|]. split; [exact Hre2|]. split; [congruence|]. intros P V.
      assert (M : lgr_add_variant (mv g) c vc (ve_type v) (ve_when v) (ve_not_when v) (ve_comment v) (attr_words (ve_ref v)) None false false = (mv g1, Ok tt)).
      { apply move_add_variant; [exact V| |exact A']. apply (proj2 P c). apply (proj2 W2). exact Wt. }
      rewrite A' in A. rewrite M. cbn [attempt] in A |- *. injection A as <-. apply K; rewrite Wr; assumption.
  Qed.
  Lemma data_within : forall l g r prev g' r', lgr_reachable g -> process_data_loop false g r prev l = (g', r', Ok tt) ->
    within g g' /\ lg_raise g' = lg_raise g /\ (pair_ok (lg_raise g) g' -> process_data_loop false (mv g) r prev l = (mv g', r', Ok tt)).
  Proof.
    induction l as [|[cp a vs|first last a x|] l IH]; intros g r prev g' r' Hre H; cbn [process_data_loop] in H |- *.
    - injection H as <- <-. split; [apply within_refl|]. split; reflexivity.
    - destruct (parse_cps cp) as [c|]; [|discriminate]. destruct (attempt false _ _) as [[g1 r1] [[]|e]] eqn:A; [|discriminate].
      pose proof A as A'. apply attempt_ok in A'. destruct (add_cp_within _ _ _ _ _ _ _ _ A') as [W [Wc Wr]].
      assert (Hre1 : lgr_reachable g1). { pose proof (lgr_reachable_step g (LAddCp c (at_comment a) (attr_words (at_ref a)) (attr_words (at_tag a)) (at_when a) (at_not_when a) None false false) Hre) as K. cbn [lgr_step] in K. rewrite A' in K. exact K. }
      destruct (process_vars false g1 r1 c vs) as [[g2 r2] [[]|e]] eqn:V; [|discriminate]. destruct (vars_within _ _ _ _ _ _ Hre1 V) as [W2 [Hre2 [Wr2 KV]]].
      destruct (IH _ _ _ _ _ Hre2 H) as [W3 [Wr3 K]]. pose proof (within_trans _ _ _ W2 W3) as W23. split; [exact (within_trans _ _ _ W W23)|]. split; [congruence|]. intro P.
      assert (Vc : valid_in db (lg_raise g) c) by (apply (proj1 P); apply (proj1 W23); exact Wc).
      pose proof (move_add_cp _ _ _ _ _ _ _ _ Vc A') as M. rewrite M. rewrite A' in A. cbn [attempt] in A |- *. injection A as <-.
      rewrite KV; [apply K; rewrite Wr2, Wr; exact P|rewrite Wr; exact (within_ok _ _ _ W3 P)|rewrite Wr; exact Vc].
    - destruct (parse_cp first) as [f|]; [|discriminate]. destruct (parse_cp last) as [la|]; [|discriminate]. destruct (attempt false _ _) as [[g1 r1] [[]|e]] eqn:A; [|discriminate].
      pose proof A as A'. apply attempt_ok in A'. destruct (add_range_within _ _ _ _ _ _ _ _ _ (lgr_reachable_wf g Hre) A') as [W [Wc Wr]].
      assert (Hre1 : lgr_reachable g1). { pose proof (lgr_reachable_step g (LAddRange f la (at_comment a) (attr_words (at_ref a)) (attr_words (at_tag a)) (at_when a) (at_not_when a) None false false) Hre) as K. cbn [lgr_step] in K. rewrite A' in K. exact K. }
      destruct (IH _ _ _ _ _ Hre1 H) as [W3 [Wr3 K]]. split; [exact (within_trans _ _ _ W W3)|]. split; [congruence|]. intro P.
      assert (Vr : forall y, f <= y <= la -> valid_in db (lg_raise g) [y]) by (intros y Hy; apply (proj1 P); apply (proj1 W3); exact (Wc y Hy)).
      rewrite (move_add_range _ _ _ _ _ _ _ _ _ (lgr_reachable_wf g Hre) Vr A').
      rewrite A' in A. cbn [attempt] in A |- *. injection A as <-. apply K. rewrite Wr. exact P.
    - exact (IH _ _ _ _ _ Hre H).
  Qed.
End Move.
Lemma admits_pair : forall db allow g, admits db allow g -> pair_ok db (negb allow) g.
Proof.
  intros db allow g [->|H]; [split; intros; left; reflexivity|]. split.
  - intros c Hc. right. intros x d Hx Hd. rewrite <- lookup_lk in Hc. destruct (lookup (lg_rep g) c) as [ch|] eqn:E; [|congruence]. apply (H x d); [|exact Hd]. exists c, ch. auto.
  - intros a b [v [ch [H1 [H2 <-]]]]. right. intros x d Hx Hd. apply (H x d); [|exact Hd]. exists a, ch. split; [exact H1|]. right. exists v. auto.
Qed.
