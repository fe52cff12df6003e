(** The matching functions of the table parsers against TableSpec. *)
From Verif Require Import Base BaseFacts CharModel LgrModel UtilsModel UtilsProofs AnnotateModel AnnotateSpec AnnotateRead
  TableModel TableSpec.

Lemma char_digit_iff : forall c v, char_digit c = Some v <-> hex_digit c v.
Proof.
  intros c v. unfold char_digit, hex_digit.
  destruct (N.leb 48 c && N.leb c 57)%bool eqn:E1.
  { apply andb_true_iff in E1. destruct E1 as [E1 E2]. apply N.leb_le in E1, E2.
    split; [intro E; injection E as <-; lia|intro E; f_equal; lia]. }
  destruct (N.leb 65 c && N.leb c 70)%bool eqn:E2.
  { apply andb_true_iff in E2. destruct E2 as [E2 E3]. apply N.leb_le in E2, E3.
    split; [intro E; injection E as <-; lia|intro E; f_equal; lia]. }
  destruct (N.leb 97 c && N.leb c 102)%bool eqn:E3.
  { apply andb_true_iff in E3. destruct E3 as [E3 E4]. apply N.leb_le in E3, E4.
    split; [intro E; injection E as <-; lia|intro E; f_equal; lia]. }
  split; [discriminate|]. apply andb_false_iff in E1, E2, E3. rewrite !N.leb_gt in *. lia.
Qed.
Lemma is_hex_iff : forall c, is_hex c = true <-> exists v, hex_digit c v.
Proof.
  intro c. unfold is_hex. destruct (char_digit c) as [v|] eqn:E.
  - split; auto. intros _. exists v. apply char_digit_iff; auto.
  - split; [discriminate|]. intros [v H]. apply char_digit_iff in H. congruence.
Qed.
Definition hexes (d : cps) : Prop := Forall (fun c => is_hex c = true) d.

Lemma is_hex_range : forall c, is_hex c = true -> 48 <= c <= 57 \/ 65 <= c <= 70 \/ 97 <= c <= 102.
Proof. intros c H. apply is_hex_iff in H. destruct H as [v H]. unfold hex_digit in H. lia. Qed.
Lemma is_hex_space : forall c, is_hex c = true -> is_space c = false.
Proof.
  intros c H. destruct (is_space c) eqn:E; auto. exfalso. apply is_hex_range in H.
  unfold is_space in E. repeat (apply orb_true_iff in E; destruct E as [E|E]);
  rewrite ?andb_true_iff, ?N.leb_le, ?N.eqb_eq in E; lia.
Qed.

(** The value, by the loop of int(). *)
Lemma int_digits_value : forall d m n, hexes d -> int_digits 16 (Some m) false d = Some n ->
  forall p, hex_value p m -> hex_value (p ++ d) n.
Proof.
  induction d as [|c d IH]; intros m n Hd H p Hp.
  - cbn in H. injection H as <-. rewrite app_nil_r. exact Hp.
  - inversion Hd as [|? ? Hc Hd']; subst. pose proof (is_hex_range _ Hc) as Hr.
    cbn [int_digits] in H. destruct (N.eqb_spec c 95) as [E|E]; [lia|].
    destruct (char_digit c) as [v|] eqn:Ev; [|discriminate]. destruct (N.ltb v 16) eqn:El; [|discriminate].
    apply char_digit_iff in Ev. change (c :: d) with ([c] ++ d). rewrite app_assoc.
    eapply IH; [exact Hd'|exact H|]. rewrite (N.mul_comm m 16). constructor; auto.
Qed.
Lemma int_digits_total : forall d m, hexes d -> exists n, int_digits 16 (Some m) false d = Some n.
Proof.
  induction d as [|c d IH]; intros m Hd; [exists m; reflexivity|].
  inversion Hd as [|? ? Hc Hd']; subst. pose proof (is_hex_range _ Hc) as Hr. cbn [int_digits].
  destruct (N.eqb_spec c 95) as [E|E]; [lia|]. unfold is_hex in Hc. destruct (char_digit c) as [v|] eqn:Ev; [|discriminate].
  apply char_digit_iff in Ev. destruct (N.ltb_spec v 16) as [El|El]; [apply IH; auto|]. unfold hex_digit in Ev. lia.
Qed.
Lemma int16_value : forall d, hexes d -> d <> [] -> exists n, int16 d = Ok n /\ hex_value d n.
Proof.
  intros d Hd Hne. destruct d as [|c d]; [contradiction|]. clear Hne. inversion Hd as [|? ? Hc Hd']; subst.
  pose proof (is_hex_range _ Hc) as Hr.
  assert (Hv : exists v, char_digit c = Some v) by (unfold is_hex in Hc; destruct (char_digit c); [eauto|discriminate]).
  destruct Hv as [v Hv]. destruct (int_digits_total d v Hd') as [n Hn].
  assert (Hval : hex_value (c :: d) n).
  { change (c :: d) with ([c] ++ d). eapply int_digits_value; [exact Hd'|exact Hn|].
    apply char_digit_iff in Hv. apply (hv_more [] 0 c v hv_none) in Hv. exact Hv. }
  exists n. split; [|exact Hval].
  assert (Hi : int_digits 16 None false (c :: d) = Some n).
  { cbn [int_digits]. destruct (N.eqb_spec c 95) as [E|E]; [lia|]. rewrite Hv.
    apply char_digit_iff in Hv. destruct (N.ltb_spec v 16) as [El|El]; [|unfold hex_digit in Hv; lia].
    replace (0 * 16 + v) with v by lia. exact Hn. }
  assert (Hu : int_unsigned 16 (c :: d) = Some n).
  { unfold int_unsigned. rewrite <- Hi. destruct d as [|x d]; [destruct c as [|p]; [reflexivity|]; do 6 (destruct p as [p|p|]; try reflexivity)|].
   
    inversion Hd' as [|? ? Hx _]; subst. pose proof (is_hex_range _ Hx) as Hrx.
    replace (N.eqb x 120) with false by (symmetry; apply N.eqb_neq; lia).
    replace (N.eqb x 88) with false by (symmetry; apply N.eqb_neq; lia).
    cbn [orb]. rewrite andb_false_r.
    repeat match goal with |- context[match ?y with _ => _ end] => is_var y; destruct y; try reflexivity end. }
  unfold int16, py_int. rewrite strip_id.
  2:{ apply Forall_forall. intros x Hx. apply is_hex_space. unfold hexes in Hd. rewrite Forall_forall in Hd. auto. }
  assert (Ht : match c :: d with
               | 45 :: t => option_map (fun n => Z.opp (Z.of_N n)) (int_unsigned 16 t)
               | 43 :: t => option_map Z.of_N (int_unsigned 16 t)
               | t => option_map Z.of_N (int_unsigned 16 t)
               end = Some (Z.of_N n)).
  { destruct (N.eq_dec c 45) as [->|E1]; [lia|]. destruct (N.eq_dec c 43) as [->|E2]; [lia|].
    transitivity (option_map Z.of_N (int_unsigned 16 (c :: d))); [|rewrite Hu; reflexivity].
    clear -E1 E2. destruct c as [|p]; [reflexivity|].
    repeat match goal with |- context[match ?y with _ => _ end] => is_var y; destruct y; try reflexivity end; exfalso; auto. }
  rewrite Ht. cbn [bind]. rewrite N2Z.id. reflexivity.
Qed.

Lemma hex_value_hexes : forall d n, hex_value d n -> hexes d.
Proof.
  intros d n H. induction H as [|d n c v H IH Hc]; [constructor|].
  apply Forall_app. split; [exact IH|]. constructor; [|constructor]. apply is_hex_iff. eauto.
Qed.
Lemma hex_digit_fun : forall c v w, hex_digit c v -> hex_digit c w -> v = w.
Proof. intros c v w H1 H2. unfold hex_digit in *. lia. Qed.
Lemma hex_value_fun : forall d n, hex_value d n -> forall m, hex_value d m -> n = m.
Proof.
  intros d n H. induction H as [|d n c v H IH Hc]; intros m Hm.
  - inversion Hm as [Hx|d' n' c' v' H1 H2 E1]; auto. destruct d'; discriminate.
  - inversion Hm as [Hx|d' n' c' v' H1 H2 E1].
    + destruct d; discriminate.
    + apply app_inj_tail in E1. destruct E1 as [-> ->]. rewrite (IH _ H1), (hex_digit_fun _ _ _ Hc H2). reflexivity.
Qed.
Lemma int16_hex_value : forall d n, hex_value d n -> d <> [] -> int16 d = Ok n.
Proof.
  intros d n H Hne. destruct (int16_value d (hex_value_hexes _ _ H) Hne) as [m [H1 H2]].
  rewrite H1, (hex_value_fun _ _ H _ H2). reflexivity.
Qed.

Lemma take_hex_spec : forall k s d t, take_hex k s = (d, t) ->
  s = d ++ t /\ hexes d /\ (length d <= k)%nat /\ (length d = k \/ forall c v u, t = c :: u -> ~ hex_digit c v).
Proof.
  induction k as [|k IH]; intros s d t H.
  - cbn in H. injection H as <- <-. split; [auto|]. split; [constructor|]. split; [auto|]. left. reflexivity.
  - destruct s as [|c s]; cbn [take_hex] in H.
    + injection H as <- <-. split; [auto|]. split; [constructor|]. split; [cbn; lia|]. right. discriminate.
    + destruct (is_hex c) eqn:E.
      * destruct (take_hex k s) as [d' t'] eqn:Et. injection H as <- <-. destruct (IH _ _ _ Et) as [H1 [H2 [H3 H4]]].
        split; [cbn; f_equal; exact H1|]. split; [constructor; auto|]. split; [cbn; lia|].
        destruct H4 as [H4|H4]; [left; cbn; f_equal; exact H4|right; exact H4].
      * injection H as <- <-. split; [auto|]. split; [constructor|]. split; [cbn; lia|]. right.
        intros x v u Hx Hd. injection Hx as <- <-. assert (is_hex c = true) by (apply is_hex_iff; eauto). congruence.
Qed.
Lemma take_hex_eq : forall d k t, hexes d -> (length d <= k)%nat ->
  (length d = k \/ forall c v u, t = c :: u -> ~ hex_digit c v) -> take_hex k (d ++ t) = (d, t).
Proof.
  induction d as [|c d IH]; intros k t Hd Hk Hm.
  - destruct k as [|k]; [reflexivity|]. destruct t as [|c t]; [reflexivity|]. cbn [app take_hex].
    destruct (is_hex c) eqn:E; auto. exfalso. apply is_hex_iff in E. destruct E as [v E].
    destruct Hm as [Hm|Hm]; [discriminate|]. eapply Hm; eauto.
  - inversion Hd as [|? ? Hc Hd']; subst. destruct k as [|k]; [cbn in Hk; lia|]. cbn [app take_hex]. rewrite Hc.
    rewrite IH; auto; [cbn in Hk; lia|]. destruct Hm as [Hm|Hm]; [left; cbn in Hm; lia|right; exact Hm].
Qed.
Lemma number_match : forall s n t, number s n t <-> exists d, match_hex s = Some (d, t) /\ int16 d = Ok n.
Proof.
  intros s n t. unfold match_hex. split.
  - intros [d [H1 [H2 [H3 H4]]]]. exists d. subst s. rewrite take_hex_eq; [|eapply hex_value_hexes; eauto|lia|exact H4].
    destruct (Nat.leb_spec 4 (length d)) as [E|E]; [|lia]. split; auto. apply int16_hex_value; auto.
    intro Hx. subst d. cbn in H2. lia.
  - intros [d [H1 H2]]. destruct (take_hex 6 s) as [d' t'] eqn:Et. destruct (Nat.leb_spec 4 (length d')) as [E|E]; [|discriminate].
    injection H1 as -> ->. destruct (take_hex_spec _ _ _ _ Et) as [K1 [K2 [K3 K4]]].
    assert (Hne : d <> []) by (intro Hx; subst d; cbn in E; lia).
    destruct (int16_value d K2 Hne) as [m [K5 K6]]. rewrite K5 in H2. injection H2 as <-.
    exists d. split; [exact K1|]. split; [lia|]. split; [exact K6|exact K4].
Qed.
Lemma match_hex_total : forall s d t, match_hex s = Some (d, t) -> exists n, int16 d = Ok n.
Proof.
  intros s d t H. unfold match_hex in H. destruct (take_hex 6 s) as [d' t'] eqn:Et.
  destruct (Nat.leb_spec 4 (length d')) as [E|E]; [|discriminate]. injection H as -> ->.
  destruct (take_hex_spec _ _ _ _ Et) as [_ [K2 _]]. destruct (int16_value d K2) as [n [Hn _]]; eauto.
  intro Hx. subst d. cbn in E. lia.
Qed.
Lemma match_u_inv : forall s d t, match_u s = Some (d, t) -> exists s', s = 85 :: 43 :: s' /\ match_hex s' = Some (d, t).
Proof.
  intros s d t H. unfold match_u in H. destruct s as [|a [|b s']]; try discriminate.
  destruct (N.eqb_spec a 85) as [->|E1]; [|discriminate]. destruct (N.eqb_spec b 43) as [->|E2]; [|discriminate].
  cbn [andb] in H. eauto.
Qed.
Lemma token_match : forall s n t, token s n t <-> exists d, match_u s = Some (d, t) /\ int16 d = Ok n.
Proof.
  intros s n t. split.
  - intros [s' [-> H]]. apply number_match in H. exact H.
  - intros [d [H1 H2]]. destruct (match_u_inv _ _ _ H1) as [s' [-> H3]]. exists s'. split; auto. apply number_match. eauto.
Qed.
Lemma match_u_total : forall s d t, match_u s = Some (d, t) -> exists n, int16 d = Ok n.
Proof. intros s d t H. destruct (match_u_inv _ _ _ H) as [s' [_ H3]]. eapply match_hex_total; eauto. Qed.
Lemma match_u_token : forall s d t, match_u s = Some (d, t) -> exists n, int16 d = Ok n /\ token s n t.
Proof. intros s d t H. destruct (match_u_total _ _ _ H) as [n Hn]. exists n. split; auto. apply token_match. eauto. Qed.
Lemma no_token : forall s, match_u s = None <-> forall n rest, ~ token s n rest.
Proof.
  intro s. split.
  - intros H n rest Ht. apply token_match in Ht. destruct Ht as [d [Ht _]]. congruence.
  - intro H. destruct (match_u s) as [[d t]|] eqn:E; auto. exfalso. destruct (match_u_token _ _ _ E) as [n [_ Hn]]. eapply H; eauto.
Qed.
Lemma token_fun : forall s n t m u, token s n t -> token s m u -> n = m /\ t = u.
Proof.
  intros s n t m u H1 H2. apply token_match in H1, H2. destruct H1 as [d [H1 K1]], H2 as [e [H2 K2]].
  rewrite H1 in H2. injection H2 as <- <-. split; [congruence|auto].
Qed.
Lemma token_shorter : forall s n t, token s n t -> (length t < length s)%nat.
Proof. intros s n t [s' [-> [d [-> _]]]]. cbn [length]. rewrite app_length. lia. Qed.

Lemma find_u_mentions : forall fuel s, (length s <= fuel)%nat ->
  mentions s (ok_values (map int16 (find_u fuel s))).
Proof.
  induction fuel as [|f IH]; intros s Hf.
  - destruct s; [constructor|cbn in Hf; lia].
  - destruct s as [|a r]; [constructor|]. cbn [find_u]. destruct (match_u (a :: r)) as [[d t]|] eqn:E.
    + destruct (match_u_token _ _ _ E) as [n [Hn Ht]]. cbn [map ok_values flat_map]. rewrite Hn.
      cbn [app]. eapply men_token; [exact Ht|]. apply IH. pose proof (token_shorter _ _ _ Ht). lia.
    + constructor; [apply no_token; exact E|]. apply IH. cbn in Hf. lia.
Qed.
Lemma mentions_fun : forall s c, mentions s c -> forall c', mentions s c' -> c = c'.
Proof.
  intros s c H. induction H as [|a s c Hn H IH|s n rest c Ht H IH]; intros c' H'.
  - inversion H' as [|?|? ? ? ? Ht]; auto. destruct Ht as [? [Hx _]]. discriminate.
  - inversion H' as [|a' s' k Hn' Hk|s' n' rest' k Ht' Hk]; subst; [apply IH; auto|]. exfalso. eapply Hn; eauto.
  - inversion H' as [E|a' s' k Hn' Hk|s' n' rest' k Ht' Hk]; subst.
    + destruct Ht as [? [Hx _]]. discriminate.
    + exfalso. eapply Hn'; eauto.
    + destruct (token_fun _ _ _ _ _ Ht Ht') as [-> ->]. f_equal. apply IH. exact Hk.
Qed.

Lemma data_line_states : forall line t, data_line line = Some t <-> states line t.
Proof.
  intros line t. unfold data_line, states. split.
  - destruct (strip line) as [|c r] eqn:E; [discriminate|]. destruct (N.eqb_spec c 35) as [->|Ec]; [discriminate|].
    intro H. injection H as <-. rewrite <- E. split; [|split; [apply strip_trimmed|]].
    + rewrite strip_is. destruct (lstrip_split line) as [pre [H1 H2]]. destruct (rstrip_split (lstrip line)) as [post [H3 H4]].
      exists pre, post. split; [|auto]. rewrite H1 at 1. rewrite H3 at 1. reflexivity.
    + rewrite E. split; [discriminate|]. intros u Hu. injection Hu as Hu _. contradiction.
  - intros [[pre [post [-> [H1 H2]]]] [H3 [H4 H5]]]. rewrite strip_around by auto. destruct t as [|c t]; [contradiction|].
    destruct (N.eqb_spec c 35) as [->|E]; auto. exfalso. eapply H5. reflexivity.
Qed.
