From Verif Require Import Base BaseFacts UtilsModel UtilsSpec.
From Coq Require Import Ascii.

(** ** Digits *)
Definition hexchar (c : N) : Prop := 48 <= c <= 57 \/ 65 <= c <= 70.

Lemma digit_char_hex : forall d, d < 16 -> hexchar (digit_char d).
Proof. intros d H. unfold digit_char, hexchar. destruct (N.ltb_spec d 10); lia. Qed.

Lemma char_digit_char : forall d, d < 16 -> char_digit (digit_char d) = Some d.
Proof.
  intros d H. unfold digit_char, char_digit. destruct (N.ltb_spec d 10).
  - destruct (N.leb_spec 48 (48 + d)); [|lia]. destruct (N.leb_spec (48 + d) 57); [|lia].
    cbn [andb]. f_equal. lia.
  - destruct (N.leb_spec 48 (55 + d)); [|lia]. destruct (N.leb_spec (55 + d) 57); [lia|].
    destruct (N.leb_spec 65 (55 + d)); [|lia]. destruct (N.leb_spec (55 + d) 70); [|lia].
    cbn [andb]. f_equal. lia.
Qed.

Lemma hexchar_not : forall c, hexchar c -> is_space c = false /\ c <> 95 /\ c <> 45 /\ c <> 43 /\ c <> 120 /\ c <> 88 /\ c <> 85 /\ c <> 117.
Proof.
  intros c H. unfold hexchar in H. split; [|lia]. unfold is_space.
  repeat rewrite orb_false_iff. repeat rewrite andb_false_iff. repeat rewrite N.leb_gt. repeat rewrite N.eqb_neq. lia.
Qed.

Lemma digits_aux_hex : forall base fuel n acc, 2 <= base <= 16 ->
  Forall hexchar acc -> Forall hexchar (digits_aux base fuel n acc).
Proof.
  intros base fuel. induction fuel as [|f IH]; simpl; intros n acc Hb Ha; auto.
  assert (Hd : Forall hexchar (digit_char (N.modulo n base) :: acc)).
  { constructor; auto. apply digit_char_hex. pose proof (N.mod_lt n base). lia. }
  destruct (N.eqb _ _); auto.
Qed.

Lemma digits_hex : forall base n, 2 <= base <= 16 -> Forall hexchar (digits base n).
Proof. intros. apply digits_aux_hex; auto. Qed.

Lemma int_digits_digit : forall base A d r, 2 <= base <= 16 -> d < base ->
  int_digits base A false (digit_char d :: r) =
  int_digits base (Some (match A with None => 0 | Some a => a end * base + d)) false r.
Proof.
  intros base A d r Hb Hd. cbn [int_digits].
  assert (H16 : d < 16) by lia. rewrite char_digit_char by exact H16.
  destruct (hexchar_not _ (digit_char_hex d H16)) as [_ [Hu _]].
  apply N.eqb_neq in Hu. rewrite Hu. apply N.ltb_lt in Hd. rewrite Hd. reflexivity.
Qed.

Lemma int_digits_aux : forall base fuel n acc A, 2 <= base <= 16 ->
  n < 2 ^ N.of_nat fuel -> (0 < fuel)%nat -> A = None \/ A = Some 0 ->
  int_digits base A false (digits_aux base fuel n acc) = int_digits base (Some n) false acc.
Proof.
  intros base fuel. induction fuel as [|f IH]; intros n acc A Hb Hn Hf HA; [lia|].
  cbn [digits_aux].
  assert (Hm : N.modulo n base < base) by (apply N.mod_lt; lia).
  pose proof (N.div_mod n base) as Hdm.
  destruct (N.eqb_spec (N.div n base) 0) as [E|E].
  - rewrite int_digits_digit by auto. f_equal. f_equal. rewrite E in Hdm. destruct HA as [HA|HA]; subst A; lia.
  - destruct f as [|f'].
    { change (2 ^ N.of_nat 1) with 2 in Hn. exfalso. apply E. apply N.div_small. lia. }
    rewrite IH.
    + rewrite int_digits_digit by auto. f_equal. f_equal. lia.
    + exact Hb.
    + apply N.div_lt_upper_bound; [lia|]. eapply N.lt_le_trans; [exact Hn|].
      rewrite (Nat2N.inj_succ (S f')), N.pow_succ_r'. apply N.mul_le_mono_r. lia.
    + lia.
    + exact HA.
Qed.

Lemma digits_value : forall base n A, 2 <= base <= 16 -> A = None \/ A = Some 0 ->
  int_digits base A false (digits base n) = Some n.
Proof.
  intros base n A Hb HA. unfold digits. rewrite int_digits_aux; auto; [|lia].
  rewrite Nat2N.inj_succ, N2Nat.id, N.pow_succ_r'. pose proof (N.size_gt n). lia.
Qed.

Lemma digits_nonempty : forall base n, digits base n <> [].
Proof.
  intros base n. unfold digits. cbn [digits_aux].
  assert (H : forall f m acc, acc <> [] -> digits_aux base f m acc <> []).
  { induction f as [|f IH]; simpl; intros m acc Ha; auto.
    destruct (N.eqb _ _); [discriminate|apply IH; discriminate]. }
  destruct (N.eqb _ _); [discriminate|]. apply H. discriminate.
Qed.

Lemma pad0_hex : forall k l, Forall hexchar l -> Forall hexchar (pad0 k l).
Proof.
  induction k as [|k IH]; simpl; intros l H; auto. constructor; auto. unfold hexchar. lia.
Qed.

Lemma pad0_length : forall k l, length (pad0 k l) = (k + length l)%nat.
Proof. induction k as [|k IH]; simpl; intros l; auto. Qed.

Lemma int_digits_pad0 : forall base k l A, 2 <= base <= 16 -> A = None \/ A = Some 0 ->
  exists A', (A' = None \/ A' = Some 0) /\ int_digits base A false (pad0 k l) = int_digits base A' false l.
Proof.
  intros base k. induction k as [|k IH]; intros l A Hb HA; [exists A; auto|].
  cbn [pad0]. change (48 :: pad0 k l) with (digit_char 0 :: pad0 k l).
  rewrite int_digits_digit by lia.
  replace (match A with None => 0 | Some a => a end * base + 0) with 0 by (destruct HA; subst A; lia).
  apply IH; auto.
Qed.

(** ** strip and int *)
Lemma lstrip_id : forall l, Forall (fun c => is_space c = false) l -> lstrip l = l.
Proof. intros [|c l] H; auto. inversion H as [|? ? H1 H2]; subst. simpl. rewrite H1. reflexivity. Qed.

Lemma strip_id : forall l, Forall (fun c => is_space c = false) l -> strip l = l.
Proof.
  intros l H. unfold strip. rewrite (lstrip_id l H). rewrite lstrip_id; [apply rev_involutive|].
  apply Forall_forall. intros x Hx. apply in_rev in Hx. rewrite Forall_forall in H. auto.
Qed.

Lemma hex_nospace : forall l, Forall hexchar l -> Forall (fun c => is_space c = false) l.
Proof. intros l H. eapply Forall_impl; [|exact H]. intros a Ha. apply hexchar_not. exact Ha. Qed.

Lemma int_unsigned_hex : forall base l, Forall hexchar l -> int_unsigned base l = int_digits base None false l.
Proof.
  intros base l H. destruct l as [|a l]; [reflexivity|].
  destruct (N.eq_dec a 48) as [E|E].
  - subst a. destruct l as [|x r]; [reflexivity|].
    inversion H as [|? ? _ H2]; subst. inversion H2 as [|? ? H3 _]; subst.
    destruct (hexchar_not _ H3) as [_ [_ [_ [_ [Hx1 [Hx2 _]]]]]].
    unfold int_unsigned. apply N.eqb_neq in Hx1. apply N.eqb_neq in Hx2. rewrite Hx1, Hx2.
    rewrite andb_false_r. reflexivity.
  - unfold int_unsigned. destruct a as [|p]; [reflexivity|].
    do 6 (destruct p as [p|p|]; try reflexivity). destruct l as [|x r]; [reflexivity|]. congruence.
Qed.

Lemma py_int_hex : forall base l, Forall hexchar l ->
  py_int base l = match int_digits base None false l with Some n => Ok (Z.of_N n) | None => Raise ValueError end.
Proof.
  intros base l H. unfold py_int. rewrite strip_id by (apply hex_nospace; exact H).
  rewrite <- (int_unsigned_hex base l H).
  destruct l as [|a l]; [reflexivity|].
  inversion H as [|? ? Ha _]; subst. destruct (hexchar_not _ Ha) as [_ [_ [Hm [Hp _]]]].
  assert (Hgen : match a :: l with
           | 45 :: t => option_map (fun n => Z.opp (Z.of_N n)) (int_unsigned base t)
           | 43 :: t => option_map Z.of_N (int_unsigned base t)
           | t => option_map Z.of_N (int_unsigned base t)
           end = option_map Z.of_N (int_unsigned base (a :: l))).
  { destruct a as [|p]; [reflexivity|]. do 6 (destruct p as [p|p|]; try reflexivity); congruence. }
  rewrite Hgen. destruct (int_unsigned base (a :: l)); reflexivity.
Qed.

Theorem py_int_cp_to_str : forall n, py_int 16 (cp_to_str n) = Ok (Z.of_N n).
Proof.
  intro n. unfold cp_to_str. assert (Hb : 2 <= 16 <= 16) by lia.
  assert (Hh : Forall hexchar (digits 16 n)) by (apply digits_hex; exact Hb).
  rewrite py_int_hex by (apply pad0_hex; exact Hh).
  destruct (int_digits_pad0 16 (4 - length (digits 16 n)) (digits 16 n) None Hb (or_introl eq_refl)) as [A' [H1 H2]].
  rewrite H2, digits_value; auto.
Qed.

Theorem cp_to_str_inj : forall a b, cp_to_str a = cp_to_str b -> a = b.
Proof.
  intros a b H. pose proof (py_int_cp_to_str a) as Ha. rewrite H, py_int_cp_to_str in Ha.
  injection Ha as Ha. lia.
Qed.

Lemma cp_to_str_hex : forall n, Forall hexchar (cp_to_str n).
Proof. intro n. apply pad0_hex. apply digits_hex. lia. Qed.

Lemma cp_to_str_length : forall n, (4 <= length (cp_to_str n))%nat.
Proof. intro n. unfold cp_to_str. rewrite pad0_length. lia. Qed.

(** Decimal notation of integers. *)
Theorem py_int_str : forall z, py_int 10 (py_str_Z z) = Ok z.
Proof.
  intro z. assert (Hb : 2 <= 10 <= 16) by lia.
  destruct z as [|p|p].
  - reflexivity.
  - unfold py_str_Z. rewrite py_int_hex by (apply digits_hex; exact Hb). rewrite digits_value; auto.
  - unfold py_str_Z, py_int. rewrite strip_id.
    + rewrite int_unsigned_hex by (apply digits_hex; exact Hb). rewrite digits_value; auto.
    + constructor; [reflexivity|]. apply hex_nospace. apply digits_hex. exact Hb.
Qed.

Theorem py_str_inj : forall a b, py_str_Z a = py_str_Z b -> a = b.
Proof. intros a b H. pose proof (py_int_str a) as Ha. rewrite H, py_int_str in Ha. congruence. Qed.

(** ** split / join *)
Definition word (w : cps) : Prop := w <> [] /\ Forall (fun c => is_space c = false) w.

Lemma split_ws_word : forall w cur s, Forall (fun c => is_space c = false) w ->
  split_ws_aux cur (w ++ s) = split_ws_aux (rev w ++ cur) s.
Proof.
  induction w as [|c w IH]; simpl; intros cur s H; auto.
  inversion H as [|? ? H1 H2]; subst. rewrite H1, IH by exact H2.
  rewrite <- app_assoc. reflexivity.
Qed.

Theorem split_join : forall ws, Forall word ws -> split_ws (join [32] ws) = ws.
Proof.
  unfold split_ws. induction ws as [|w ws IH]; intro H; [reflexivity|].
  inversion H as [|? ? [Hne Hns] H2]; subst.
  assert (Hr : forall t, rev w ++ [] <> [] -> split_ws_aux (rev w ++ []) (32 :: t) = w :: split_ws_aux [] t).
  { intros t Hn. cbn [split_ws_aux]. change (is_space 32) with true. cbn iota.
    destruct (rev w ++ []) as [|x y] eqn:E; [congruence|]. rewrite <- E.
    rewrite app_nil_r, rev_involutive. reflexivity. }
  assert (Hn : rev w ++ [] <> []).
  { rewrite app_nil_r. intro Hc. apply Hne. rewrite <- (rev_involutive w), Hc. reflexivity. }
  destruct ws as [|w2 ws].
  - cbn [join]. rewrite <- (app_nil_r w) at 1. rewrite split_ws_word by exact Hns.
    cbn [split_ws_aux]. destruct (rev w ++ []) as [|x y] eqn:E; [congruence|].
    rewrite <- E, app_nil_r, rev_involutive. reflexivity.
  - change (join [32] (w :: w2 :: ws)) with (w ++ 32 :: join [32] (w2 :: ws)).
    rewrite split_ws_word by exact Hns. rewrite Hr by exact Hn. rewrite IH by exact H2. reflexivity.
Qed.

Lemma split_on_word : forall sep w cur s, ~ In sep w ->
  split_on_aux sep cur (w ++ s) = split_on_aux sep (rev w ++ cur) s.
Proof.
  intros sep. induction w as [|c w IH]; simpl; intros cur s H; auto.
  destruct (N.eqb_spec c sep) as [E|E]; [tauto|]. rewrite IH by tauto.
  rewrite <- app_assoc. reflexivity.
Qed.

Theorem split_on_join : forall sep ws, ws <> [] -> Forall (fun w => ~ In sep w) ws ->
  split_on sep (join [sep] ws) = ws.
Proof.
  unfold split_on. intros sep ws. induction ws as [|w ws IH]; intros Hne H; [congruence|].
  inversion H as [|? ? H1 H2]; subst. destruct ws as [|w2 ws].
  - cbn [join]. rewrite <- (app_nil_r w) at 1. rewrite split_on_word by exact H1.
    cbn [split_on_aux]. rewrite app_nil_r, rev_involutive. reflexivity.
  - change (join [sep] (w :: w2 :: ws)) with (w ++ sep :: join [sep] (w2 :: ws)).
    rewrite split_on_word by exact H1. cbn [split_on_aux]. rewrite N.eqb_refl.
    rewrite app_nil_r, rev_involutive, IH by (auto; discriminate). reflexivity.
Qed.

(** string_to_list is the inverse of ' '.join for lists of words free of
    spaces, except that the list containing only the empty word is lost. *)
Theorem string_to_list_join : forall ws, ws <> [[]] -> Forall (fun w => ~ In 32 w) ws ->
  string_to_list (join [32] ws) = ws.
Proof.
  intros ws Hne H. unfold string_to_list. destruct ws as [|w ws]; [reflexivity|].
  destruct (join [32] (w :: ws)) as [|c s] eqn:E.
  - destruct ws as [|w2 ws]; simpl in E.
    + subst. congruence.
    + destruct w; discriminate.
  - rewrite <- E. apply split_on_join; auto. discriminate.
Qed.

(** ** Code point lists *)
Lemma cp_to_str_word : forall n, word (cp_to_str n).
Proof.
  intro n. split.
  - intro Hc. pose proof (cp_to_str_length n) as H. rewrite Hc in H. simpl in H. lia.
  - apply hex_nospace. apply cp_to_str_hex.
Qed.

Lemma mapM_map_ok : forall A B C (f : B -> res C) (g : A -> B) (h : A -> C) l,
  (forall a, In a l -> f (g a) = Ok (h a)) -> mapM_res f (map g l) = Ok (map h l).
Proof.
  intros A B C f g h l. induction l as [|a l IH]; simpl; intro H; auto.
  rewrite H by auto. cbn [bind]. rewrite IH by auto. reflexivity.
Qed.

Theorem cp_attr_roundtrip : forall c, parse_cp_attr (format_cp_attr c) = Ok (map Z.of_N c).
Proof.
  intro c. unfold parse_cp_attr, format_cp_attr. rewrite split_join.
  - apply mapM_map_ok. intros a _. apply py_int_cp_to_str.
  - apply Forall_forall. intros w Hw. apply in_map_iff in Hw. destruct Hw as [a [Ha _]]. subst. apply cp_to_str_word.
Qed.

Theorem format_cp_attr_inj : forall a b, format_cp_attr a = format_cp_attr b -> a = b.
Proof.
  intros a b H. pose proof (cp_attr_roundtrip a) as Ha. rewrite H, cp_attr_roundtrip in Ha.
  injection Ha as Ha. revert b H Ha. induction a as [|x a IH]; destruct b as [|y b]; simpl; intros H Ha; try discriminate; auto.
  injection Ha as H1 H2. f_equal; [lia|]. clear H. revert b H2.
  clear. induction a as [|x a IH]; destruct b as [|y b]; simpl; intro H; try discriminate; auto.
  injection H as H1 H2. f_equal; [lia|auto].
Qed.

Lemma u_plus_word : forall n, word (u_plus ++ cp_to_str n).
Proof.
  intro n. split; [discriminate|]. simpl. constructor; [reflexivity|]. constructor; [reflexivity|].
  apply cp_to_str_word.
Qed.

Theorem parse_single_u_plus : forall n,
  parse_single_cp_input (u_plus ++ cp_to_str n) =
  if N.leb n 1114111 then Ok n else Raise ValueError.
Proof.
  intro n. unfold parse_single_cp_input. rewrite strip_id by apply u_plus_word.
  pose proof (cp_to_str_length n) as Hl. change (u_plus ++ cp_to_str n) with (85 :: 43 :: cp_to_str n).
  cbn iota. change (N.eqb (upper_ascii 85) 85 && N.eqb 43 43)%bool with true. cbn iota.
  rewrite py_int_cp_to_str. cbn [bind].
  destruct (Z.ltb_spec (Z.of_N n) 0); [lia|]. cbn [orb].
  destruct (N.leb_spec n 1114111).
  - destruct (Z.ltb_spec 1114111 (Z.of_N n)); [lia|]. rewrite N2Z.id. reflexivity.
  - destruct (Z.ltb_spec 1114111 (Z.of_N n)); [|lia]. reflexivity.
Qed.

Theorem parse_single_plain : forall n,
  parse_single_cp_input (cp_to_str n) =
  if N.leb n 1114111 then Ok n else Raise ValueError.
Proof.
  intro n. unfold parse_single_cp_input. rewrite strip_id by apply cp_to_str_word.
  pose proof (cp_to_str_length n) as Hl. pose proof (cp_to_str_hex n) as Hh.
  pose proof (py_int_cp_to_str n) as Hp.
  destruct (cp_to_str n) as [|a [|b s]]; simpl in Hl; try lia.
  inversion Hh as [|? ? Ha Hh']; subst.
  assert (Hu : N.eqb (upper_ascii a) 85 = false).
  { apply N.eqb_neq. unfold upper_ascii. unfold hexchar in Ha.
    destruct (N.leb_spec 97 a); simpl; [|lia]. lia. }
  rewrite Hu. cbn [andb]. rewrite Hp. cbn [bind].
  destruct (Z.ltb_spec (Z.of_N n) 0); [lia|]. cbn [orb].
  destruct (N.leb_spec n 1114111).
  - destruct (Z.ltb_spec 1114111 (Z.of_N n)); [lia|]. rewrite N2Z.id. reflexivity.
  - destruct (Z.ltb_spec 1114111 (Z.of_N n)); [|lia]. reflexivity.
Qed.

Theorem format_cp_roundtrip : forall c, Forall (fun n => n <= 1114111) c ->
  parse_codepoint_input (format_cp c) = Ok c.
Proof.
  intros c H. unfold parse_codepoint_input, format_cp. rewrite split_join.
  - rewrite <- (map_id c) at 2. apply mapM_map_ok with (h := fun x => x). intros a Ha.
    rewrite parse_single_u_plus. rewrite Forall_forall in H. specialize (H a Ha).
    apply N.leb_le in H. rewrite H. reflexivity.
  - apply Forall_forall. intros w Hw. apply in_map_iff in Hw. destruct Hw as [a [Ha _]]. subst. apply u_plus_word.
Qed.

(** ** Collapsing *)
Lemma nrange_snoc : forall f l, f <= l + 1 -> nrange f (l + 1) = nrange f l ++ [l + 1].
Proof.
  intros f l H. unfold nrange.
  replace (N.to_nat (l + 1 + 1 - f)) with (S (N.to_nat (l + 1 - f))) by lia.
  rewrite seq_S, map_app. simpl. f_equal. f_equal. lia.
Qed.

Lemma nrange_single : forall c, nrange c c = [c].
Proof. intro c. unfold nrange. replace (N.to_nat (c + 1 - c)) with 1%nat by lia. simpl. f_equal. lia. Qed.

Lemma collapse_loop_expand : forall l f last, f <= last ->
  (expand_ranges_list (collapse_loop f last l)) = nrange f last ++ l.
Proof.
  induction l as [|c l IH]; simpl; intros f last H.
  - rewrite app_nil_r. reflexivity.
  - destruct (N.eqb_spec c (last + 1)) as [E|E].
    + subst c. rewrite IH by lia. rewrite nrange_snoc by lia. rewrite <- app_assoc. reflexivity.
    + change (expand_ranges_list ((f, last) :: collapse_loop c c l)) with
        (nrange f last ++ expand_ranges_list (collapse_loop c c l)).
      rewrite IH by lia. rewrite nrange_single. reflexivity.
Qed.

Lemma collapse_loop_head : forall l f last, exists e rest, collapse_loop f last l = (f, e) :: rest /\ last <= e.
Proof.
  induction l as [|c l IH]; simpl; intros f last.
  - exists last, []. split; auto. lia.
  - destruct (N.eqb_spec c (last + 1)) as [E|E].
    + destruct (IH f c) as [e [rest [H1 H2]]]. exists e, rest. split; auto. lia.
    + exists last. eexists. split; [reflexivity|lia].
Qed.

Lemma collapse_loop_sorted : forall l f last, f <= last -> StronglySorted N.lt (last :: l) ->
  StronglySorted separated (collapse_loop f last l) /\
  Forall (fun p => fst p <= snd p) (collapse_loop f last l) /\
  (forall p, In p (collapse_loop f last l) -> f <= fst p).
Proof.
  induction l as [|c l IH]; intros f last Hf Hs; simpl.
  - split; [constructor; constructor|]. split; [constructor; auto|]. intros p [Hp|[]]. subst. simpl. lia.
  - inversion Hs as [|? ? Hs' Hall]; subst. inversion Hall as [|? ? Hlt _]; subst.
    destruct (N.eqb_spec c (last + 1)) as [E|E].
    + apply IH; auto. lia.
    + assert (Hcc : c <= c) by lia. destruct (IH c c Hcc Hs') as [H1 [H2 H3]]. split; [|split].
      * constructor; auto. apply Forall_forall. intros p Hp. specialize (H3 p Hp).
        unfold separated. simpl. lia.
      * constructor; auto.
      * intros p [Hp|Hp]; [subst; simpl; lia|]. specialize (H3 p Hp). lia.
Qed.

Lemma isort_strict_N : forall l, NoDup l -> StronglySorted N.lt (isort N.leb l).
Proof.
  intros l Hnd.
  assert (Ht : forall a b, N.leb a b = true \/ N.leb b a = true) by (intros; rewrite !N.leb_le; lia).
  assert (Htr : forall a b c, N.leb a b = true -> N.leb b c = true -> N.leb a c = true) by (intros a b c; rewrite !N.leb_le; lia).
  pose proof (isort_sorted N.leb Ht Htr l) as Hs. pose proof (isort_NoDup N.leb _ Hnd) as Hn.
  induction (isort N.leb l) as [|k ks IH]; [constructor|].
  inversion Hs as [|? ? Hs' Hf]; subst. inversion Hn as [|? ? Hni Hn']; subst. constructor; auto.
  rewrite Forall_forall in *. intros x Hx. specialize (Hf x Hx). unfold le_ in Hf. apply N.leb_le in Hf.
  assert (k <> x) by congruence. lia.
Qed.

Theorem collapse_spec : forall l, l <> [] ->
  exists rs, collapse_codepoints l = Ok rs /\
    Permutation (expand_ranges_list rs) l /\
    (NoDup l -> StronglySorted separated rs /\ Forall (fun p => fst p <= snd p) rs).
Proof.
  intros l Hne. unfold collapse_codepoints.
  pose proof (isort_perm N.leb l) as Hp.
  pose proof (isort_strict_N l) as Hst.
  destruct (isort N.leb l) as [|c s].
  { exfalso. apply Hne. apply Permutation_nil. apply Permutation_sym. exact Hp. }
  eexists. split; [reflexivity|]. assert (Hcc : c <= c) by lia. split.
  - rewrite collapse_loop_expand by exact Hcc. rewrite nrange_single. apply Permutation_sym. exact Hp.
  - intro Hnd. destruct (collapse_loop_sorted s c c Hcc (Hst Hnd)) as [H1 [H2 _]]. auto.
Qed.

Theorem collapse_order_independent : forall l1 l2, Permutation l1 l2 ->
  collapse_codepoints l1 = collapse_codepoints l2.
Proof.
  intros l1 l2 H. unfold collapse_codepoints.
  assert (E : isort N.leb l1 = isort N.leb l2); [|rewrite E; reflexivity].
  apply isort_perm_eq; auto.
  - intros a b. rewrite !N.leb_le. lia.
  - intros a b c. rewrite !N.leb_le. lia.
  - intros a b. rewrite !N.leb_le. lia.
Qed.

(** The ranges are the only such list. *)
Theorem collapse_unique : forall l rs rs', NoDup l -> collapse_codepoints l = Ok rs ->
  StronglySorted separated rs' -> Forall (fun p => fst p <= snd p) rs' ->
  (forall x, In x (expand_ranges_list rs') <-> In x l) -> rs' = rs.
Proof.
  intros l rs rs' Hnd Hc Hs' Hf' Hx'.
  assert (Hne : l <> []). { intro E. subst. discriminate. }
  destruct (collapse_spec l Hne) as [rs0 [H0 [Hp Hsp]]]. rewrite Hc in H0. injection H0 as H0. subst rs0.
  destruct (Hsp Hnd) as [Hs Hf].
  assert (Hx : forall x, In x (expand_ranges_list rs') <-> In x (expand_ranges_list rs)).
  { intro x. rewrite Hx'. split; intro H; [eapply Permutation_in; [apply Permutation_sym; exact Hp|exact H]|
      eapply Permutation_in; [exact Hp|exact H]]. }
  clear - Hs Hs' Hf Hf' Hx. revert rs Hs Hf Hx.
  assert (Hin : forall x rs, In x (expand_ranges_list rs) <-> exists p, In p rs /\ fst p <= x <= snd p).
  { intros x rs. unfold expand_ranges_list. rewrite in_flat_map. split; intros [p [H1 H2]]; exists p; split; auto; apply nrange_In; exact H2. }
  induction rs' as [|[a b] rs' IH]; intros rs Hs Hf Hx.
  - destruct rs as [|[c d] rs]; auto. exfalso. inversion Hf as [|? ? H1 _]; subst. simpl in H1.
    assert (H : In c (expand_ranges_list [])). { apply Hx. apply Hin. exists (c, d). simpl. split; auto. lia. }
    exact H.
  - inversion Hs' as [|? ? Hs1 Hs2]; subst. inversion Hf' as [|? ? Hab Hf1]; subst. simpl in Hab.
    destruct rs as [|[c d] rs].
    { exfalso. assert (H : In a (expand_ranges_list [])). { apply Hx. apply Hin. exists (a, b). simpl. split; auto. lia. } exact H. }
    inversion Hs as [|? ? Hs3 Hs4]; subst. inversion Hf as [|? ? Hcd Hf2]; subst. simpl in Hcd.
    rewrite Forall_forall in Hs2, Hs4, Hf1, Hf2.
    assert (Hmem : forall x, (exists p, In p ((a, b) :: rs') /\ fst p <= x <= snd p) <-> (exists p, In p ((c, d) :: rs) /\ fst p <= x <= snd p)).
    { intro x. rewrite <- !Hin. apply Hx. }
    assert (Hleft : forall x, (exists p, In p ((a, b) :: rs') /\ fst p <= x <= snd p) -> a <= x).
    { intros x [p [[Hp|Hp] Hr]]; [subst; simpl in Hr; lia|]. specialize (Hs2 p Hp). unfold separated in Hs2. simpl in Hs2. lia. }
    assert (Hright : forall x, (exists p, In p ((c, d) :: rs) /\ fst p <= x <= snd p) -> c <= x).
    { intros x [p [[Hp|Hp] Hr]]; [subst; simpl in Hr; lia|]. specialize (Hs4 p Hp). unfold separated in Hs4. simpl in Hs4. lia. }
    assert (Hac : a = c).
    { assert (H1 : c <= a). { apply Hright. apply Hmem. exists (a, b). simpl. split; auto. lia. }
      assert (H2 : a <= c). { apply Hleft. apply Hmem. exists (c, d). simpl. split; auto. lia. } lia. }
    subst c.
    assert (Hbd : b = d).
    { destruct (N.lt_trichotomy b d) as [H|[H|H]]; auto; exfalso.
      - assert (He : exists p, In p ((a, b) :: rs') /\ fst p <= b + 1 <= snd p).
        { apply Hmem. exists (a, d). simpl. split; auto. lia. }
        destruct He as [p [[Hp|Hp] Hr]]; [subst; simpl in Hr; lia|]. specialize (Hs2 p Hp). unfold separated in Hs2. simpl in Hs2. lia.
      - assert (He : exists p, In p ((a, d) :: rs) /\ fst p <= d + 1 <= snd p).
        { apply Hmem. exists (a, b). simpl. split; auto. lia. }
        destruct He as [p [[Hp|Hp] Hr]]; [subst; simpl in Hr; lia|]. specialize (Hs4 p Hp). unfold separated in Hs4. simpl in Hs4. lia. }
    subst d. f_equal. apply IH; auto; [apply Forall_forall; exact Hf1|apply Forall_forall; exact Hf2|].
    intro x. rewrite !Hin. split; intros [p [Hp Hr]].
    + assert (He : exists p, In p ((a, b) :: rs) /\ fst p <= x <= snd p) by (apply Hmem; exists p; simpl; auto).
      destruct He as [q [[Hq|Hq] Hr']]; [|eauto]. subst q. simpl in Hr'.
      specialize (Hs2 p Hp). unfold separated in Hs2. simpl in Hs2. lia.
    + assert (He : exists p, In p ((a, b) :: rs') /\ fst p <= x <= snd p) by (apply Hmem; exists p; simpl; auto).
      destruct He as [q [[Hq|Hq] Hr']]; [|eauto]. subst q. simpl in Hr'.
      specialize (Hs4 p Hp). unfold separated in Hs4. simpl in Hs4. lia.
Qed.
