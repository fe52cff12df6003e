From Verif Require Import Base BaseFacts UtilsModel UtilsSpec UtilsProofs Rfc7940Model MetaModel MetaSpec.
Open Scope string_scope.
Open Scope list_scope.

(** ** Dates *)
Definition padded_okb (k : nat) (n : N) : bool := cps_eqb (padded k (Z.of_N n)) (dec k n).
Lemma padded4_all : forallb (padded_okb 4) (nrange 0 9999) = true.
Proof. vm_compute. reflexivity. Qed.
Lemma padded2_all : forallb (padded_okb 2) (nrange 0 99) = true.
Proof. vm_compute. reflexivity. Qed.
Lemma padded4 : forall n, n <= 9999 -> padded 4 (Z.of_N n) = dec 4 n.
Proof.
  intros n H. pose proof padded4_all as Ha. rewrite forallb_forall in Ha. apply cps_eqb_eq. apply Ha. apply nrange_In. lia.
Qed.
Lemma padded2 : forall n, n <= 99 -> padded 2 (Z.of_N n) = dec 2 n.
Proof.
  intros n H. pose proof padded2_all as Ha. rewrite forallb_forall in Ha. apply cps_eqb_eq. apply Ha. apply nrange_In. lia.
Qed.
Lemma padded_hex : forall k z, Forall hexchar (padded k z).
Proof. intros. unfold padded. apply pad0_hex. apply digits_hex. lia. Qed.
Lemma py_int_padded : forall k n, py_int 10 (padded k (Z.of_N n)) = Ok (Z.of_N n).
Proof.
  intros k n. unfold padded. rewrite N2Z.id. assert (Hb : 2 <= 10 <= 16) by lia.
  assert (Hh : Forall hexchar (digits 10 n)) by (apply digits_hex; exact Hb).
  rewrite py_int_hex by (apply pad0_hex; exact Hh).
  destruct (int_digits_pad0 10 (k - length (digits 10 n)) (digits 10 n) None Hb (or_introl eq_refl)) as [A' [H1 H2]].
  rewrite H2, digits_value; auto.
Qed.
Lemma hex_no_dash : forall l, Forall hexchar l -> ~ In 45 l.
Proof. intros l H Hi. rewrite Forall_forall in H. apply H in Hi. apply hexchar_not in Hi. tauto. Qed.

Lemma split_iso : forall y m d, split_on 45 (isoformat y m d) = [padded 4 y; padded 2 m; padded 2 d].
Proof.
  intros y m d. change (isoformat y m d) with (join [45] [padded 4 y; padded 2 m; padded 2 d]).
  apply split_on_join; [discriminate|]. repeat constructor; apply hex_no_dash; apply padded_hex.
Qed.

Lemma leap_b : forall y, is_leap (Z.of_N y) = true <-> leap y.
Proof.
  intro y. unfold is_leap, leap. rewrite andb_true_iff, orb_true_iff, negb_true_iff.
  rewrite !Z.eqb_eq, Z.eqb_neq. 
  change 4%Z with (Z.of_N 4). change 100%Z with (Z.of_N 100). change 400%Z with (Z.of_N 400).
  rewrite <- !N2Z.inj_mod. lia.
Qed.
Lemma month_cases : forall m, 1 <= m <= 12 -> In m [1;2;3;4;5;6;7;8;9;10;11;12].
Proof.
  intros m H. assert (E : m = 1 \/ m = 2 \/ m = 3 \/ m = 4 \/ m = 5 \/ m = 6 \/ m = 7 \/ m = 8 \/ m = 9 \/ m = 10 \/ m = 11 \/ m = 12) by lia.
  cbn [In]. intuition.
Qed.
Lemma day_b : forall y m d, 1 <= m <= 12 ->
  ((1 <= Z.of_N d <= days_in_month (Z.of_N y) (Z.of_N m))%Z <-> day_of y m d).
Proof.
  intros y m d Hm. apply month_cases in Hm. cbn [In] in Hm.
  assert (H31 : In m [1;3;5;7;8;10;12] -> ((1 <= Z.of_N d <= days_in_month (Z.of_N y) (Z.of_N m))%Z <-> day_of y m d)).
  { intro Hi. assert (E : days_in_month (Z.of_N y) (Z.of_N m) = 31%Z) by (cbn [In] in Hi; decompose [or] Hi; subst; try reflexivity; contradiction).
    rewrite E. split.
    - intro H. apply Day_31; auto; lia.
    - intro H. inversion H; subst; try lia; cbn [In] in Hi; lia. }
  assert (H30 : In m [4;6;9;11] -> ((1 <= Z.of_N d <= days_in_month (Z.of_N y) (Z.of_N m))%Z <-> day_of y m d)).
  { intro Hi. assert (E : days_in_month (Z.of_N y) (Z.of_N m) = 30%Z) by (cbn [In] in Hi; decompose [or] Hi; subst; try reflexivity; contradiction).
    rewrite E. split.
    - intro H. apply Day_30; auto; lia.
    - intro H. inversion H as [? ? Hj ?| | |]; subst; try lia; cbn [In] in Hi, Hj; lia. }
  destruct (N.eq_dec m 2) as [E|E].
  - subst m. change (days_in_month (Z.of_N y) (Z.of_N 2)) with (if is_leap (Z.of_N y) then 29 else 28)%Z.
    pose proof (leap_b y) as Hl. destruct (is_leap (Z.of_N y)).
    + split.
      * intro H. assert (Hd : d <= 28 \/ d = 29) by lia. destruct Hd as [Hd|Hd]; [apply Day_feb; lia|subst; apply Day_leap; tauto].
      * intro H. inversion H as [? ? Hj ?|? ? Hj ?| |]; subst; try lia; cbn [In] in Hj; lia.
    + split.
      * intro H. apply Day_feb. lia.
      * intro H. inversion H as [? ? Hj ?|? ? Hj ?| |Hj]; subst; try lia; try (cbn [In] in Hj; lia). apply Hl in Hj. discriminate.
  - assert (Hi : In m [1;3;5;7;8;10;12] \/ In m [4;6;9;11]) by (cbn [In]; decompose [or] Hm; try (left; lia); try (right; lia); lia).
    destruct Hi; auto.
Qed.
Lemma day_of_month : forall y m d, day_of y m d -> 1 <= m <= 12.
Proof. intros y m d H. inversion H as [? ? Hj ?|? ? Hj ?| |]; subst; try lia; cbn [In] in Hj; lia. Qed.
Lemma day_of_day : forall y m d, day_of y m d -> 1 <= d <= 31.
Proof. intros y m d H. inversion H; subst; lia. Qed.

Lemma date_object_day : forall y m d t, date_object y m d = Ok t ->
  exists y' m' d', t = (Z.of_N y', Z.of_N m', Z.of_N d') /\ y = Z.of_N y' /\ m = Z.of_N m' /\ d = Z.of_N d' /\
    exists_day (mkDay y' m' d').
Proof.
  intros y m d t H. unfold date_object in H. destruct (negb (c_int y && c_int m && c_int d)); [discriminate|].
  destruct (negb _) eqn:E1 in H; [discriminate|]. destruct (negb _) eqn:E2 in H; [discriminate|].
  destruct (negb _) eqn:E3 in H; [discriminate|]. injection H as H.
  rewrite negb_false_iff, andb_true_iff in *. rewrite !Z.leb_le in *.
  exists (Z.to_N y), (Z.to_N m), (Z.to_N d). rewrite !Z2N.id by lia.
  split; [auto|]. do 3 (split; [reflexivity|]). split; cbn [d_year d_month d_day]; [lia|].
  apply day_b; [lia|]. rewrite !Z2N.id by lia. lia.
Qed.
Lemma day_date_object : forall t, exists_day t ->
  date_object (Z.of_N (d_year t)) (Z.of_N (d_month t)) (Z.of_N (d_day t)) =
  Ok (Z.of_N (d_year t), Z.of_N (d_month t), Z.of_N (d_day t)).
Proof.
  intros [y m d] [H1 H2]. cbn [d_year d_month d_day] in *. pose proof (day_of_month _ _ _ H2) as Hm. pose proof (day_of_day _ _ _ H2) as Hd.
  apply day_b in H2; [|exact Hm].
  unfold date_object, c_int.
  repeat match goal with |- context [Z.leb ?a ?b] => destruct (Z.leb_spec a b); try lia end. reflexivity.
Qed.
Lemma iso_written : forall t, exists_day t ->
  isoformat (Z.of_N (d_year t)) (Z.of_N (d_month t)) (Z.of_N (d_day t)) = written t.
Proof.
  intros [y m d] [H1 H2]. cbn [d_year d_month d_day] in *. pose proof (day_of_month _ _ _ H2) as Hm. pose proof (day_of_day _ _ _ H2) as Hd.
  unfold isoformat, written. cbn [d_year d_month d_day]. rewrite padded4, !padded2 by lia. reflexivity.
Qed.

Lemma validate_ok : forall s force, full_date s -> validate_date s force = Ok s.
Proof.
  intros s force [t [Ht Hs]]. subst s. rewrite <- (iso_written t Ht) at 1 2. unfold validate_date.
  rewrite split_iso. cbn [mapM_res]. rewrite !py_int_padded. cbn [bind].
  rewrite (day_date_object t Ht), (iso_written t Ht), cps_eqb_refl. reflexivity.
Qed.
(** Some number of the text does not fit in a machine integer. *)
Definition oversized (s : cps) : Prop :=
  exists a b c x y z, split_on 45 s = [a; b; c] /\ py_int 10 a = Ok x /\ py_int 10 b = Ok y /\ py_int 10 c = Ok z /\
    (c_int x && c_int y && c_int z = false)%bool.
Lemma py_int_raise : forall b l e, py_int b l = Raise e -> e = ValueError.
Proof. intros b l e H. unfold py_int in H. cbv zeta in H. destruct (match strip l with [] => _ | _ => _ end); congruence. Qed.
Lemma mapM3 : forall a b c r, mapM_res (py_int 10) [a; b; c] = r ->
  r = Raise ValueError \/ exists x y z, r = Ok [x; y; z] /\ py_int 10 a = Ok x /\ py_int 10 b = Ok y /\ py_int 10 c = Ok z.
Proof.
  intros a b c r H. cbn [mapM_res] in H.
  destruct (py_int 10 a) as [x|e] eqn:E1; [|left; apply py_int_raise in E1; subst; reflexivity]. cbn [bind] in H.
  destruct (py_int 10 b) as [y|e] eqn:E2; [|left; apply py_int_raise in E2; subst; reflexivity]. cbn [bind] in H.
  destruct (py_int 10 c) as [z|e] eqn:E3; [|left; apply py_int_raise in E3; subst; reflexivity]. cbn [bind] in H.
  right. exists x, y, z. auto.
Qed.
Lemma date_object_raise : forall y m d e, date_object y m d = Raise e ->
  (e = OverflowError /\ (c_int y && c_int m && c_int d = false)%bool) \/ (e = ValueError /\ (c_int y && c_int m && c_int d = true)%bool).
Proof.
  intros y m d e H. unfold date_object in H. destruct (c_int y && c_int m && c_int d)%bool eqn:E; cbn [negb] in H.
  - right. split; [|reflexivity]. destruct (negb _) in H; [congruence|]. destruct (negb _) in H; [congruence|]. destruct (negb _) in H; congruence.
  - left. split; congruence.
Qed.
Lemma c_int_day : forall y m d t, date_object y m d = Ok t -> (c_int y && c_int m && c_int d = true)%bool.
Proof. intros y m d t H. unfold date_object in H. destruct (c_int y && c_int m && c_int d)%bool; [reflexivity|discriminate]. Qed.

(** The outcome of the date check, in every case. *)
Theorem validate_date_cases : forall s force,
  (full_date s /\ validate_date s force = Ok s) \/
  (~ full_date s /\ oversized s /\ validate_date s force = Raise OverflowError) \/
  (~ full_date s /\ ~ oversized s /\
   validate_date s force = if force then Ok s else Raise (LGRFormatException INVALID_DATE_TAG)).
Proof.
  intros s force.
  assert (Hf : forall f, full_date s -> validate_date s f = Ok s) by (intro f; apply validate_ok).
  assert (Hn : validate_date s false <> Ok s -> ~ full_date s) by (intros H Hc; apply H; auto).
  assert (Hbad : forall f, invalid_date s f = if f then Ok s else Raise (LGRFormatException INVALID_DATE_TAG)) by reflexivity.
  unfold validate_date in *.
  destruct (split_on 45 s) as [|a [|b [|c [|]]]] eqn:Es;
    try (right; right; rewrite Hbad in *; split; [apply Hn; discriminate|]; split; [intros [p [q [r [x [y [z [H _]]]]]]]; congruence|reflexivity]).
  destruct (mapM3 a b c _ eq_refl) as [E|[x [y [z [E [E1 [E2 E3]]]]]]]; rewrite E in *.
  { right. right. rewrite Hbad in *. split; [apply Hn; discriminate|]. split; [|reflexivity].
    intros [p [q [r [x [y [z [H [G1 [G2 [G3 _]]]]]]]]]]. rewrite Es in H. injection H as H1 H2 H3. subst.
    cbn [mapM_res] in E. rewrite G1, G2, G3 in E. discriminate. }
  assert (Ho : oversized s <-> (c_int x && c_int y && c_int z = false)%bool).
  { split.
    - intros [p [q [r [x' [y' [z' [H [G1 [G2 [G3 G4]]]]]]]]]]. rewrite Es in H. injection H as H1 H2 H3. subst. congruence.
    - intro H. exists a, b, c, x, y, z. auto 10. }
  destruct (date_object x y z) as [[[y' m'] d']|e] eqn:Ed.
  - destruct (date_object_day _ _ _ _ Ed) as [ny [nm [nd [Et [_ [_ [_ Hd]]]]]]]. injection Et as T1 T2 T3. subst y' m' d'.
    pose proof (iso_written _ Hd) as Hiso. cbn [d_year d_month d_day] in Hiso.
    destruct (cps_eqb _ s) eqn:Ec.
    + left. split; [|reflexivity]. apply cps_eqb_eq in Ec. exists (mkDay ny nm nd). split; [exact Hd|congruence].
    + right. right. rewrite Hbad in *. split; [apply Hn; discriminate|]. split; [|reflexivity]. rewrite Ho, (c_int_day _ _ _ _ Ed). discriminate.
  - destruct (date_object_raise _ _ _ _ Ed) as [[He Hc]|[He Hc]]; subst e.
    + right. left. split; [apply Hn; discriminate|]. split; [apply Ho; exact Hc|reflexivity].
    + right. right. rewrite Hbad in *. split; [apply Hn; discriminate|]. split; [rewrite Ho; congruence|reflexivity].
Qed.

Theorem set_date_spec : forall m s,
  let '(m', x) := md_set_date m s false in
  same_but_date m m' /\
  ((full_date s /\ x = Ok tt /\ md_date m' = Some s) \/
   (~ full_date s /\ (x = Raise (LGRFormatException INVALID_DATE_TAG) \/ x = Raise OverflowError) /\ m' = m)).
Proof.
  intros m s. unfold md_set_date. destruct (validate_date_cases s false) as [[H E]|[[H [Ho E]]|[H [Ho E]]]]; rewrite E.
  - split; [unfold same_but_date; cbn; auto 10|left; auto].
  - split; [unfold same_but_date; auto 10|right; auto].
  - split; [unfold same_but_date; auto 10|right; auto].
Qed.
Theorem set_start_spec : forall m s,
  let '(m', x) := md_set_start m s false in
  same_but_start m m' /\
  ((full_date s /\ x = Ok tt /\ md_start m' = Some s) \/
   (~ full_date s /\ (x = Raise (LGRFormatException INVALID_DATE_TAG) \/ x = Raise OverflowError) /\ m' = m)).
Proof.
  intros m s. unfold md_set_start. destruct (validate_date_cases s false) as [[H E]|[[H [Ho E]]|[H [Ho E]]]]; rewrite E.
  - split; [unfold same_but_start; cbn; auto 10|left; auto].
  - split; [unfold same_but_start; auto 10|right; auto].
  - split; [unfold same_but_start; auto 10|right; auto].
Qed.
Theorem set_end_spec : forall m s,
  let '(m', x) := md_set_end m s false in
  same_but_end m m' /\
  ((full_date s /\ x = Ok tt /\ md_end m' = Some s) \/
   (~ full_date s /\ (x = Raise (LGRFormatException INVALID_DATE_TAG) \/ x = Raise OverflowError) /\ m' = m)).
Proof.
  intros m s. unfold md_set_end. destruct (validate_date_cases s false) as [[H E]|[[H [Ho E]]|[H [Ho E]]]]; rewrite E.
  - split; [unfold same_but_end; cbn; auto 10|left; auto].
  - split; [unfold same_but_end; auto 10|right; auto].
  - split; [unfold same_but_end; auto 10|right; auto].
Qed.

(** ** Order *)
Lemma dec_length : forall k n, length (dec k n) = k.
Proof. induction k as [|k IH]; intro n; [reflexivity|]. cbn [dec]. rewrite app_length, IH. cbn. lia. Qed.
Lemma leb_app_eq : forall a x y, cps_leb (a ++ x) (a ++ y) = cps_leb x y.
Proof. induction a as [|c a IH]; intros; [reflexivity|]. cbn. rewrite N.eqb_refl. apply IH. Qed.
Lemma dec_compare : forall k a b x y, a < 10 ^ N.of_nat k -> b < 10 ^ N.of_nat k ->
  cps_leb (dec k a ++ x) (dec k b ++ y) = if N.eqb a b then cps_leb x y else N.ltb a b.
Proof.
  induction k as [|k IH]; intros a b x y Ha Hb.
  - cbn in Ha, Hb. assert (a = 0) by lia. assert (b = 0) by lia. subst. reflexivity.
  - cbn [dec]. rewrite <- !app_assoc.
    assert (Hp : 10 ^ N.of_nat (S k) = 10 * 10 ^ N.of_nat k) by (rewrite Nat2N.inj_succ; apply N.pow_succ_r').
    rewrite Hp in *.
    assert (Ha' : a / 10 < 10 ^ N.of_nat k) by (apply N.div_lt_upper_bound; lia).
    assert (Hb' : b / 10 < 10 ^ N.of_nat k) by (apply N.div_lt_upper_bound; lia).
    rewrite IH by assumption.
    pose proof (N.div_mod a 10 ltac:(lia)) as Da. pose proof (N.div_mod b 10 ltac:(lia)) as Db.
    pose proof (N.mod_lt a 10 ltac:(lia)) as Ma. pose proof (N.mod_lt b 10 ltac:(lia)) as Mb.
    set (qa := a / 10) in *. set (qb := b / 10) in *. set (ra := a mod 10) in *. set (rb := b mod 10) in *. clearbody qa qb ra rb.
    cbn [app cps_leb].
    destruct (N.eqb_spec qa qb) as [Eq|Eq].
    + destruct (N.eqb_spec (48 + ra) (48 + rb)) as [Er|Er]; destruct (N.eqb_spec a b) as [Eab|Eab]; try lia; [reflexivity|].
      destruct (N.ltb_spec (48 + ra) (48 + rb)); destruct (N.ltb_spec a b); try lia; reflexivity.
    + destruct (N.eqb_spec a b); [lia|]. destruct (N.ltb_spec qa qb); destruct (N.ltb_spec a b); try lia; reflexivity.
Qed.
Theorem dates_ordered : forall a b, exists_day a -> exists_day b ->
  (text_gtb (written a) (written b) = true <-> before b a).
Proof.
  intros [y m d] [y' m' d'] [H1 H2] [H3 H4]. cbn [d_year d_month d_day] in *.
  pose proof (day_of_month _ _ _ H2). pose proof (day_of_day _ _ _ H2).
  pose proof (day_of_month _ _ _ H4). pose proof (day_of_day _ _ _ H4).
  unfold text_gtb, written, before. cbn [d_year d_month d_day]. rewrite negb_true_iff.
  assert (P4 : 10 ^ N.of_nat 4 = 10000) by reflexivity. assert (P2 : 10 ^ N.of_nat 2 = 100) by reflexivity.
  rewrite dec_compare by (rewrite P4; lia). 
  assert (L : forall u v, cps_leb ([45] ++ u) ([45] ++ v) = cps_leb u v) by (intros; apply leb_app_eq).
  rewrite L. rewrite dec_compare by (rewrite P2; lia). rewrite L.
  rewrite <- (app_nil_r (dec 2 d)), <- (app_nil_r (dec 2 d')). rewrite dec_compare by (rewrite P2; lia). change (cps_leb [] []) with true.
  destruct (N.eqb_spec y y'); [|destruct (N.ltb_spec y y'); split; intro; try discriminate; try lia].
  destruct (N.eqb_spec m m'); [|destruct (N.ltb_spec m m'); split; intro; try discriminate; try lia].
  destruct (N.eqb_spec d d'); [|destruct (N.ltb_spec d d'); split; intro; try discriminate; try lia].
  split; intro; [discriminate|lia].
Qed.

(** ** Languages *)
Section Languages.
  Variable lang_check : cps -> option bool.
  Lemma scan_plain : forall l pre err, Forall (fun x => lang_check x <> None) l ->
    scan_languages lang_check (length l) (length pre) (pre ++ l) err =
    Some (pre ++ l, err || negb (forallb (fun x => match lang_check x with Some b => b | None => false end) l)).
  Proof.
    induction l as [|x l IH]; intros pre err H.
    - cbn [scan_languages length]. rewrite app_nil_r. assert (E : nth_error pre (length pre) = None) by (apply nth_error_None; lia).
      rewrite E. cbn. rewrite orb_false_r. reflexivity.
    - inversion H as [|? ? Hx Hl]; subst. cbn [length].
      assert (E : nth_error (pre ++ x :: l) (length pre) = Some x) by (rewrite nth_error_app2, Nat.sub_diag by lia; reflexivity).
      cbn [scan_languages]. rewrite E. destruct (lang_check x) as [b|] eqn:Ex; [|congruence].
      replace (pre ++ x :: l) with ((pre ++ [x]) ++ l) by (rewrite <- app_assoc; reflexivity).
      replace (S (length pre)) with (length (pre ++ [x])) by (rewrite app_length; cbn; lia).
      rewrite IH by exact Hl. cbn [forallb]. rewrite Ex. destruct b, err; reflexivity.
  Qed.
  Lemma scan_total : forall fuel i l err, (length l <= fuel + i)%nat -> scan_languages lang_check fuel i l err <> None.
  Proof.
    induction fuel as [|f IH]; intros i l err H; cbn [scan_languages].
    - assert (E : nth_error l i = None) by (apply nth_error_None; lia). rewrite E. discriminate.
    - destruct (nth_error l i) as [x|]; [|discriminate]. destruct (lang_check x); apply IH; [lia|].
      assert (Hr : (length (remove1 cps_eqb x l) <= length l)%nat).
      { clear. induction l as [|y l IH]; cbn; [lia|]. destruct (cps_eqb x y); cbn; lia. }
      lia.
  Qed.

  Theorem set_languages_spec : forall m l, Forall (fun x => lang_check x <> None) l ->
    let '(m', x) := md_set_languages lang_check m l false in
    (Forall (fun t => lang_check t = Some true) l /\ x = Ok tt /\ md_languages m' = l /\
     same_but_languages m m' /\ md_checks m' = md_checks m) \/
    (~ Forall (fun t => lang_check t = Some true) l /\ x = Raise (LGRFormatException INVALID_LANGUAGE_TAG) /\ m' = m).
  Proof.
    intros m l H. unfold md_set_languages. pose proof (scan_plain l [] false H) as E. cbn [app length orb] in E. rewrite E.
    assert (Hb : forallb (fun x => match lang_check x with Some b => b | None => false end) l = true <-> Forall (fun t => lang_check t = Some true) l).
    { rewrite forallb_forall, Forall_forall. split; intros G x Hx; specialize (G x Hx); destruct (lang_check x) as [[|]|]; auto; discriminate. }
    destruct (forallb _ l); cbn [negb andb].
    - left. split; [apply Hb; reflexivity|]. unfold same_but_languages. cbn. auto 10.
    - right. split; [intro G; apply Hb in G; discriminate|]. auto.
  Qed.
  Theorem set_languages_total : forall m l force, snd (md_set_languages lang_check m l force) <> Raise OutOfFuel.
  Proof.
    intros m l force. unfold md_set_languages. pose proof (scan_total (length l) 0 l false ltac:(lia)) as H.
    destruct (scan_languages _ _ _ _ _) as [[l' err]|]; [|congruence]. destruct (err && negb force)%bool; discriminate.
  Qed.

  Theorem add_language_spec : forall m l,
    let '(m', x) := md_add_language lang_check m l false in
    same_but_languages m m' /\
    ((lang_check l = Some true /\ x = Ok tt /\ (forall t, In t (md_languages m') <-> t = l \/ In t (md_languages m)) /\
      (exists tl, md_languages m' = md_languages m ++ tl) /\ (NoDup (md_languages m) -> NoDup (md_languages m'))) \/
     (lang_check l <> Some true /\ x = Raise (LGRFormatException INVALID_LANGUAGE_TAG) /\ md_languages m' = md_languages m /\
      dget String.eqb "metadata_language" (md_checks m') = Some false)).
  Proof.
    intros m l. unfold md_add_language. destruct (lang_check l) as [[|]|] eqn:E; cbn [negb andb].
    - cbn [set_md_checks md_languages]. destruct (memb cps_eqb l (md_languages m)) eqn:Em.
      + split; [unfold same_but_languages; cbn; auto 10|]. left. split; [reflexivity|]. split; [reflexivity|]. cbn [md_languages].
        apply (memb_In _ _ cps_eqb_eq) in Em. split; [intro t; split; [auto|intros [->|]; auto]|]. split; [exists []; symmetry; apply app_nil_r|auto].
      + split; [unfold same_but_languages; cbn; auto 10|]. left. split; [reflexivity|]. split; [reflexivity|]. cbn [set_md_languages md_languages].
        split; [intro t; rewrite in_app_iff; cbn; intuition|]. split; [eauto|]. intro Hnd. apply NoDup_app_iff. split; [exact Hnd|].
        split; [repeat constructor; auto|]. intros t Ht [Hc|[]]. subst t. apply (memb_In _ _ cps_eqb_eq) in Ht. congruence.
    - split; [unfold same_but_languages; cbn; auto 10|]. right. split; [discriminate|]. split; [reflexivity|]. split; [reflexivity|].
      cbn [set_md_checks md_checks]. unfold report_error, add_test_result. cbn [negb orb]. rewrite (dget_dset _ string_eqb_iff). rewrite String.eqb_refl. reflexivity.
    - split; [unfold same_but_languages; cbn; auto 10|]. right. split; [discriminate|]. split; [reflexivity|]. split; [reflexivity|].
      cbn [set_md_checks md_checks]. unfold report_error, add_test_result. cbn [negb orb]. rewrite (dget_dset _ string_eqb_iff). rewrite String.eqb_refl. reflexivity.
  Qed.
End Languages.
