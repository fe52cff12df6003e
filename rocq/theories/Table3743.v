(** Reading the entries and lines of an RFC 3743 table. *)
From Verif Require Import Base BaseFacts CharModel RepSpec RepProofs RefModel RefProofs LgrModel LgrSpec ValidateModel UtilsModel UtilsProofs
  AnnotateModel AnnotateSpec AnnotateRead TableModel TableSpec TableScan TableParts TableEvents.

Lemma Forall2_in_left : forall A B (R : A -> B -> Prop) l l', Forall2 R l l' -> forall x, In x l -> exists y, In y l' /\ R x y.
Proof.
  intros A B R l l' H. induction H as [|a b l l' Hab H IH]; intros x Hx; [contradiction|].
  destruct Hx as [<-|Hx]; [exists b; split; [left; auto|auto]|]. destruct (IH x Hx) as [y [H1 H2]]. exists y. split; [right; auto|auto].
Qed.

(** ** Units *)
Lemma unit_shape : forall s n, unit_of s n -> exists p d, s = p ++ d /\ (p = [] \/ p = [85; 43]) /\
  (4 <= length d <= 6)%nat /\ hexes d /\ int16 d = Ok n.
Proof.
  intros s n [d [Hs [Hl Hv]]]. assert (Hne : d <> []) by (intro; subst d; cbn in Hl; lia).
  destruct Hs as [->| ->]; [exists [], d|exists [85; 43], d]; (split; [reflexivity|]); (split; [auto|]); (split; [exact Hl|]);
  (split; [eapply hex_value_hexes; eauto|apply int16_hex_value; auto]).
Qed.
Lemma match_unit_prefix : forall p d t, (p = [] \/ p = [85; 43]) -> hexes d -> d <> [] ->
  match_unit (p ++ d ++ t) =
  match match_hex (d ++ t) with
  | None => None
  | Some (d, t) => match t with
                   | c :: t' => if N.eqb c 32 then Some (p ++ d ++ [32], t') else Some (p ++ d, t)
                   | [] => Some (p ++ d, t)
                   end
  end.
Proof.
  intros p d t Hp Hd Hne. unfold match_unit. destruct Hp as [->| ->]; [|reflexivity].
  destruct d as [|a d]; [contradiction|]. inversion Hd as [|? ? Ha Hd']; subst. pose proof (is_hex_range _ Ha) as Hr.
  cbn [app]. destruct (d ++ t) as [|b r] eqn:E; [reflexivity|].
  destruct (N.eqb_spec a 85) as [->|E1]; [lia|]. reflexivity.
Qed.
Definition stops (t : cps) : Prop := t = [] \/ exists c r, t = c :: r /\ (c = 40 \/ c = 44).
Lemma stops_hex : forall t, stops t -> forall c v u, t = c :: u -> ~ hex_digit c v.
Proof. intros t [->|[c [r [-> H]]]] x v u E; [discriminate|]. injection E as <- _. unfold hex_digit. lia. Qed.
Lemma match_hex_eq : forall d t, hexes d -> (4 <= length d <= 6)%nat -> (forall c v u, t = c :: u -> ~ hex_digit c v) ->
  match_hex (d ++ t) = Some (d, t).
Proof.
  intros d t Hd Hl Hs. unfold match_hex. rewrite take_hex_eq; [|exact Hd|lia|right; exact Hs].
  destruct (Nat.leb_spec 4 (length d)); [reflexivity|lia].
Qed.
Lemma match_unit_space : forall s n t, unit_of s n -> match_unit (s ++ 32 :: t) = Some (s ++ [32], t).
Proof.
  intros s n t H. destruct (unit_shape _ _ H) as [p [d [-> [Hp [Hl [Hd _]]]]]]. rewrite <- !app_assoc.
  rewrite match_unit_prefix; auto; [|intro; subst d; cbn in Hl; lia].
  rewrite match_hex_eq; auto. intros c v u E. injection E as <- _. unfold hex_digit. lia.
Qed.
Lemma match_unit_last : forall s n t, unit_of s n -> stops t -> match_unit (s ++ t) = Some (s, t).
Proof.
  intros s n t H Ht. destruct (unit_shape _ _ H) as [p [d [-> [Hp [Hl [Hd _]]]]]]. rewrite <- !app_assoc.
  rewrite match_unit_prefix; auto; [|intro; subst d; cbn in Hl; lia].
  rewrite match_hex_eq; auto; [|apply stops_hex; exact Ht].
  destruct Ht as [->|[c [r [-> Hc]]]]; [reflexivity|]. destruct (N.eqb_spec c 32); [lia|reflexivity].
Qed.
Lemma match_unit_stops : forall t, stops t -> match_unit t = None.
Proof.
  intros t [->|[c [r [-> Hc]]]]; [reflexivity|]. unfold match_unit.
  assert (Hm : match_hex (c :: r) = None).
  { unfold match_hex. cbn [take_hex]. destruct (is_hex c) eqn:E; [apply is_hex_range in E; lia|reflexivity]. }
  destruct r as [|b r]; [rewrite Hm; reflexivity|]. destruct (N.eqb_spec c 85); [lia|]. cbn [andb]. rewrite Hm. reflexivity.
Qed.
Lemma unit_nonempty : forall s n, unit_of s n -> s <> [].
Proof. intros s n H. destruct (unit_shape _ _ H) as [p [d [-> [_ [Hl _]]]]] . intro E. apply app_eq_nil in E. destruct E as [_ ->]. cbn in Hl. lia. Qed.
Lemma match_units_join : forall units c t fuel, Forall2 unit_of units c -> units <> [] -> stops t ->
  (length units <= fuel)%nat -> match_units fuel (join [32] units ++ t) = (join [32] units, t).
Proof.
  induction units as [|s units IH]; intros c t fuel H Hne Ht Hf; [contradiction|].
  inversion H as [|? n ? c' Hs Hr]; subst. destruct fuel as [|fuel]; [cbn in Hf; lia|]. cbn [match_units].
  destruct units as [|s2 units].
  - cbn [join]. rewrite (match_unit_last _ _ _ Hs Ht).
    assert (Hz : match_units fuel t = ([], t)) by (destruct fuel; [reflexivity|]; cbn [match_units]; rewrite (match_unit_stops _ Ht); reflexivity).
    rewrite Hz, app_nil_r. reflexivity.
  - change (join [32] (s :: s2 :: units)) with (s ++ [32] ++ join [32] (s2 :: units)). rewrite <- !app_assoc. cbn [app].
    rewrite (match_unit_space _ _ _ Hs). rewrite (IH c' t fuel Hr); [|discriminate|exact Ht|cbn in *; lia].
    rewrite <- app_assoc. reflexivity.
Qed.
Lemma units_length : forall units c, Forall2 unit_of units c -> (length units <= length (join [32%N] units))%nat.
Proof.
  induction units as [|s units IH]; intros c H; [cbn; lia|]. inversion H as [|? n ? c' Hs Hr]; subst.
  pose proof (unit_nonempty _ _ Hs) as Hn. destruct s as [|a s]; [contradiction|].
  destruct units as [|s2 units]; [cbn; lia|]. specialize (IH _ Hr).
  change (join [32] ((a :: s) :: s2 :: units)) with ((a :: s) ++ [32] ++ join [32] (s2 :: units)). rewrite !app_length.
  change (length ((a :: s) :: s2 :: units)) with (S (length (s2 :: units))). cbn [length] in *. lia.
Qed.

(** ** References *)
Lemma match_ref_tail_ok : forall ds t, Forall digit ds ->
  match_ref_tail (flat_map (fun d => [44; d]) ds ++ 41 :: t) = Some (ds, t).
Proof.
  induction ds as [|d ds IH]; intros t H; [reflexivity|]. inversion H as [|? ? Hd Hr]; subst.
  cbn [flat_map app match_ref_tail]. change (N.eqb 44 41) with false. change (N.eqb 44 44) with true. cbv iota.
  assert (Hx : is_digit d = true) by (unfold is_digit, digit in *; rewrite andb_true_iff, !N.leb_le; lia).
  rewrite Hx, (IH t Hr). reflexivity.
Qed.
Lemma join_commas : forall d ds, join [44] (map (fun d => [d]) (d :: ds)) = d :: flat_map (fun d => [44; d]) ds.
Proof.
  intros d ds. revert d. induction ds as [|e ds IH]; intro d; [reflexivity|].
  change (join [44] (map (fun d => [d]) (d :: e :: ds))) with ([d] ++ [44] ++ join [44] (map (fun d => [d]) (e :: ds))).
  rewrite IH. reflexivity.
Qed.
Definition ends (t : cps) : Prop := t = [] \/ exists r, t = 44 :: r.
Lemma match_refs_ok : forall s ds t, citation s ds -> ends t ->
  match_refs (s ++ t) = match ds with [] => None | _ => Some (ds, t) end /\ (ds = [] -> s = []).
Proof.
  intros s ds t [[-> ->]|[Hne [Hd ->]]] Ht.
  - split; [|auto]. cbn [app]. destruct Ht as [->|[r ->]]; [reflexivity|]. destruct r; reflexivity.
  - destruct ds as [|d ds]; [contradiction|]. split; [|discriminate]. rewrite join_commas. cbn [app match_refs].
    change (N.eqb 40 40) with true. inversion Hd as [|? ? H1 H2]; subst.
    assert (Hx : is_digit d = true) by (unfold is_digit, digit in *; rewrite andb_true_iff, !N.leb_le; lia).
    rewrite Hx. cbn [andb]. rewrite <- app_assoc. cbn [app]. rewrite match_ref_tail_ok by exact H2. reflexivity.
Qed.
Lemma citation_stops : forall s ds t, citation s ds -> ends t -> stops (s ++ t).
Proof.
  intros s ds t [[-> ->]|[Hne [Hd ->]]] Ht.
  - destruct Ht as [->|[r ->]]; [left; reflexivity|]. right. exists 44, r. auto.
  - right. eexists 40, _. split; [reflexivity|auto].
Qed.
Lemma match_3743_written : forall s c ds t, written s c ds -> ends t ->
  exists us, match_3743 (s ++ t) = Some (us, ds, t) /\ sequence_values us = Ok c.
Proof.
  intros s c ds t [units [cited [Hne [Hu [Hc ->]]]]] Ht. exists (join [32] units). split.
  - unfold match_3743. rewrite <- app_assoc.
    rewrite (match_units_join units c (cited ++ t)); auto.
    + destruct (join [32] units) as [|a r] eqn:E.
      { exfalso. pose proof (units_length _ _ Hu) as Hl. rewrite E in Hl. destruct units; [contradiction|cbn in Hl; lia]. }
      destruct (match_refs_ok _ _ _ Hc Ht) as [Hm Hz]. rewrite Hm. destruct ds; [rewrite (Hz eq_refl)|]; reflexivity.
    + eapply citation_stops; eauto.
    + rewrite app_length. pose proof (units_length _ _ Hu). lia.
  - unfold sequence_values. assert (Hs : split_on 32 (join [32] units) = units).
    { apply split_on_join; auto. apply Forall_forall. intros w Hw Hi.
      destruct (Forall2_in_left _ _ _ _ _ Hu w Hw) as [n [_ Hn]]. destruct (unit_shape _ _ Hn) as [p [d [-> [Hp [_ [Hd _]]]]]].
      apply in_app_or in Hi. destruct Hi as [Hi|Hi].
      - destruct Hp as [->| ->]; [contradiction|]. destruct Hi as [E|[E|[]]]; discriminate.
      - unfold hexes in Hd. rewrite Forall_forall in Hd. apply Hd in Hi. apply is_hex_range in Hi. lia. }
    rewrite Hs. clear Hs Hne. induction Hu as [|w n units c Hw Hu IH]; [reflexivity|]. cbn [mapM_res].
    destruct (unit_shape _ _ Hw) as [p [d [-> [Hp [_ [Hd Hn]]]]]].
    assert (Hr : forall d, hexes d -> remove_u_plus d = d).
    { clear. induction d as [|a d IH]; intro H; [reflexivity|]. inversion H as [|? ? Ha Hd]; subst. cbn [remove_u_plus].
      destruct d as [|b d]; [reflexivity|]. pose proof (is_hex_range _ Ha). destruct (N.eqb_spec a 85); [lia|]. cbn [andb].
      f_equal. apply IH. exact Hd. }
    assert (Hpd : remove_u_plus (p ++ d) = d).
    { destruct Hp as [->| ->]; [apply Hr; exact Hd|]. cbn [app remove_u_plus]. change (N.eqb 85 85 && N.eqb 43 43)%bool with true.
      cbv iota. apply Hr. exact Hd. }
    rewrite Hpd, Hn. cbn [bind]. rewrite IH. reflexivity.
Qed.

Lemma match_3743_skip : forall c r, is_hex c = false -> c <> 85 -> match_3743 (c :: r) = None.
Proof.
  intros c r H1 H2. unfold match_3743. cbn [length match_units].
  assert (Hm : match_hex (c :: r) = None) by (unfold match_hex; cbn [take_hex]; rewrite H1; reflexivity).
  assert (Hu : match_unit (c :: r) = None).
  { unfold match_unit. destruct r as [|b r']; [rewrite Hm; reflexivity|]. destruct (N.eqb_spec c 85); [contradiction|].
    cbn [andb]. rewrite Hm. reflexivity. }
  rewrite Hu. reflexivity.
Qed.
Definition citing (l : list (cps * list N)) : list (cps * list string) := map (fun x => (fst x, map named (snd x))) l.

Lemma written_nonempty : forall s c ds, written s c ds -> s <> [].
Proof.
  intros s c ds [units [cited [Hne [Hu [_ ->]]]]] E. apply app_eq_nil in E. destruct E as [E _].
  pose proof (units_length _ _ Hu) as Hl. rewrite E in Hl. destruct units; [contradiction|cbn in Hl; lia].
Qed.
Lemma parse_enumerated : forall s l, enumerated s l -> forall fuel, (length s <= fuel)%nat ->
  parse_char_3743_from fuel s = Ok (citing l).
Proof.
  intros s l H. induction H as [s c ds H|s c ds k s' l H H' IH]; intros fuel Hf.
  - pose proof (written_nonempty _ _ _ H) as Hn. destruct s as [|a s]; [contradiction|].
    destruct fuel as [|fuel]; [cbn in Hf; lia|]. cbn [parse_char_3743_from].
    destruct (match_3743_written (a :: s) c ds [] H (or_introl eq_refl)) as [us [K1 K2]]. rewrite app_nil_r in K1.
    rewrite K1, K2. cbn [bind]. destruct fuel; reflexivity.
  - pose proof (written_nonempty _ _ _ H) as Hn. destruct s as [|a s]; [contradiction|].
    destruct fuel as [|fuel]; [cbn in Hf; lia|].
    destruct (match_3743_written (a :: s) c ds (44 :: repeat 32 k ++ s') H) as [us [K1 K2]]; [right; eauto|].
    cbn [app] in K1 |- *. cbn [parse_char_3743_from]. rewrite K1, K2. cbn [bind].
    assert (Hskip : forall k f, (k + length s' <= f)%nat -> parse_char_3743_from f (repeat 32 k ++ s') = Ok (citing l)).
    { clear -IH. induction k as [|k IHk]; intros f Hf; [apply IH; exact Hf|].
      destruct f as [|f]; [lia|]. cbn [repeat app parse_char_3743_from]. rewrite match_3743_skip by (auto; lia). apply IHk. lia. }
    assert (Hlen : (length s + S (k + length s') <= fuel)%nat).
    { rewrite app_length in Hf. cbn [length] in Hf. rewrite app_length, repeat_length in Hf. lia. }
    destruct fuel as [|fuel]; [lia|]. cbn [parse_char_3743_from]. rewrite match_3743_skip by (auto; lia).
    rewrite Hskip by lia. reflexivity.
Qed.
Lemma parse_enumerated_all : forall s l, enumerated s l -> parse_char_3743 s = Ok (citing l).
Proof. intros s l H. apply parse_enumerated; auto. Qed.

(** ** The shape of the texts *)
Definition hexes_or_u (c : N) : Prop := is_hex c = true \/ c = 85.
Lemma unit_starts : forall s n, unit_of s n -> exists a r, s = a :: r /\ hexes_or_u a.
Proof.
  intros s n H. destruct (unit_shape _ _ H) as [p [d [-> [Hp [Hl [Hd _]]]]]]. destruct Hp as [->| ->].
  - destruct d as [|a d]; [cbn in Hl; lia|]. inversion Hd; subst. exists a, d. split; [reflexivity|left; auto].
  - exists 85, (43 :: d). split; [reflexivity|right; auto].
Qed.
Lemma written_starts : forall s c ds, written s c ds -> exists a r, s = a :: r /\ hexes_or_u a.
Proof.
  intros s c ds [units [cited [Hne [Hu [_ ->]]]]]. destruct units as [|w units]; [contradiction|].
  inversion Hu as [|? n ? c' Hw Hr]; subst. destruct (unit_starts _ _ Hw) as [a [r [-> Ha]]].
  destruct units as [|w2 units]; [exists a, (r ++ cited)|exists a, ((r ++ [32] ++ join [32] (w2 :: units)) ++ cited)]; split; auto.
Qed.
Lemma enumerated_starts : forall s l, enumerated s l -> exists a r, s = a :: r /\ hexes_or_u a.
Proof.
  intros s l H. destruct H as [s c ds H|s c ds k s' l H _]; destruct (written_starts _ _ _ H) as [a [r [-> Ha]]].
  - eauto.
  - exists a, (r ++ 44 :: repeat 32 k ++ s'). split; auto.
Qed.
Lemma unit_ends : forall s n, unit_of s n -> exists r a, s = r ++ [a] /\ is_hex a = true.
Proof.
  intros s n H. destruct (unit_shape _ _ H) as [p [d [-> [_ [Hl [Hd _]]]]]]. destruct d as [|a d _] using rev_ind; [cbn in Hl; lia|].
  apply Forall_app in Hd. destruct Hd as [_ Hd]. inversion Hd; subst. exists (p ++ d), a. rewrite app_assoc. auto.
Qed.
Lemma units_end : forall units c, Forall2 unit_of units c -> units <> [] -> exists r a, join [32] units = r ++ [a] /\ is_hex a = true.
Proof.
  induction units as [|w units IH]; intros c H Hne; [contradiction|]. inversion H as [|? n ? c' Hw Hr]; subst.
  destruct units as [|w2 units]; [apply (unit_ends _ _ Hw)|]. destruct (IH _ Hr) as [r [a [E Ha]]]; [discriminate|].
  exists (w ++ [32] ++ r), a. split; [|exact Ha].
  change (join [32] (w :: w2 :: units)) with (w ++ [32] ++ join [32] (w2 :: units)). rewrite E, <- !app_assoc. reflexivity.
Qed.
Lemma written_ends : forall s c ds, written s c ds -> exists r a, s = r ++ [a] /\ (is_hex a = true \/ a = 41).
Proof.
  intros s c ds [units [cited [Hne [Hu [Hc ->]]]]]. destruct Hc as [[-> _]|[_ [_ ->]]].
  - destruct (units_end _ _ Hu Hne) as [r [a [E Ha]]]. exists r, a. rewrite app_nil_r. auto.
  - eexists _, 41. split; [|right; reflexivity]. rewrite app_comm_cons, app_assoc. reflexivity.
Qed.
Lemma enumerated_ends : forall s l, enumerated s l -> exists r a, s = r ++ [a] /\ (is_hex a = true \/ a = 41).
Proof.
  intros s l H. induction H as [s c ds H|s c ds k s' l H _ IH]; [eapply written_ends; eauto|].
  destruct IH as [r [a [-> Ha]]]. exists (s ++ 44 :: repeat 32 k ++ r), a. split; [|exact Ha].
  rewrite <- !app_assoc. cbn [app]. rewrite <- app_assoc. reflexivity.
Qed.
Lemma hexes_or_u_space : forall c, hexes_or_u c -> is_space c = false.
Proof. intros c [H| ->]; [apply is_hex_space; auto|reflexivity]. Qed.
Lemma enumerated_trimmed : forall s l, enumerated s l -> trimmed s.
Proof.
  intros s l H. split.
  - intros c t E. destruct (enumerated_starts _ _ H) as [a [r [E2 Ha]]]. rewrite E in E2. injection E2 as -> _. apply hexes_or_u_space. exact Ha.
  - intros t c E. destruct (enumerated_ends _ _ H) as [r [a [E2 Ha]]]. rewrite E in E2. apply app_inj_tail in E2. destruct E2 as [_ ->].
    destruct Ha as [Ha| ->]; [apply is_hex_space; auto|reflexivity].
Qed.

(** ** Columns *)

  Lemma add_vars_spec : forall force c ty l evs g, good evs g -> c <> [] ->
    Forall (fun x : cps * list N => fst x <> []) l ->
    exists evs' g', add_vars_3743 force c ty g (citing l) = (g', Done) /\ turns force evs (asked_variants c ty l) evs' /\ good evs' g'.
  Proof.
    intros force c ty. induction l as [|[v ds] l IH]; intros evs g H Hc Hn.
    - exists evs, g. cbn. split; [reflexivity|]. split; [constructor|exact H].
    - inversion Hn as [|? ? Hv Hn']; subst. cbn [citing map fst snd add_vars_3743].
      destruct (var_turn force evs g c v ty (map named ds) H Hc Hv) as [ev1 [g1 [K1 [K2 [_ K3]]]]]. rewrite K3.
      destruct (IH _ _ K2 Hc Hn') as [ev2 [g2 [K4 [K5 K6]]]].
      exists ev2, g2. split; [exact K4|]. split; [|exact K6]. unfold asked_variants. cbn [map fst snd]. econstructor; eauto.
  Qed.
  Lemma written_values : forall s c ds, written s c ds -> c <> [].
  Proof. intros s c ds [units [cited [Hne [Hu _]]]] ->. inversion Hu; subst. contradiction. Qed.
  Lemma enumerated_values : forall s l, enumerated s l -> Forall (fun x : cps * list N => fst x <> []) l.
  Proof.
    intros s l H. induction H as [s c ds H|s c ds k s' l H _ IH]; constructor; auto; cbn [fst]; eapply written_values; eauto.
  Qed.
  Lemma column_spec : forall force c ty col l evs g, good evs g -> c <> [] -> column col l ->
    exists evs' g', column_3743 force (Some c) ty g col = (g', Done) /\ turns force evs (asked_variants c ty l) evs' /\ good evs' g'.
  Proof.
    intros force c ty col l evs g H Hc Hcol. unfold column_3743. destruct col as [s|].
    - destruct Hcol as [[Hb ->]|[pre [post [s' [-> [H1 [H2 H3]]]]]]].
      + assert (Hs : strip s = []).
        { rewrite <- (app_nil_r s). change (s ++ []) with (s ++ [] ++ []). apply strip_around; [exact Hb|constructor|apply trimmed_nil]. }
        rewrite Hs. exists evs, g. split; [reflexivity|]. split; [constructor|exact H].
      + rewrite strip_around by (auto; eapply enumerated_trimmed; eauto).
        destruct (enumerated_starts _ _ H3) as [a [r [E Ha]]]. rewrite E. assert (Hne : N.eqb a 35 = false).
        { apply N.eqb_neq. destruct Ha as [Ha| ->]; [apply is_hex_range in Ha; lia|lia]. }
        rewrite Hne, <- E. cbn [insert_3743]. rewrite (parse_enumerated_all _ _ H3).
        apply add_vars_spec; auto. eapply enumerated_values; eauto.
    - cbn in Hcol. subst l. exists evs, g. split; [reflexivity|]. split; [constructor|exact H].
  Qed.

  (** ** Rows *)
  Lemma row_spec : forall force t c ds pref others last g meta evs, good evs g -> row_3743 t c ds pref others ->
    exists evs' g', TableModel.row_3743 force (mkSt last g meta) t = (mkSt (Some c) g' meta, Done) /\
      turns force evs (ECp c (map named ds) :: asked_variants c (Some "activated"%string) pref ++ asked_variants c None others) evs' /\
      good evs' g'.
  Proof.
    intros force t c ds pref others last g meta evs H [u [post [char [more [H1 [H2 [H3 [H4 [H5 [H6 H7]]]]]]]]]].
    unfold TableModel.row_3743. apply uncommented_hd in H1. rewrite H1.
    assert (Hs : strip (u ++ post) = u) by (apply (strip_around [] u post); auto; constructor).
    rewrite Hs. apply split_on_is in H3. rewrite H3. cbn [hd st_last st_lgr st_meta].
    rewrite (parse_enumerated_all char [(c, ds)] (en_one _ _ _ H5)). cbn [citing map fst snd].
    assert (Hc : c <> []) by (eapply written_values; eauto).
    destruct (cp_turn force evs g c (map named ds) H Hc) as [ev1 [g1 [K0 [K1 [K2 _]]]]]. rewrite K2.
    change (nth_error (char :: more) 1) with (nth_error more 0). change (nth_error (char :: more) 2) with (nth_error more 1).
    destruct (column_spec force c (Some "activated"%string) _ _ _ _ K1 Hc H6) as [ev2 [g2 [K3 [K4 K5]]]]. 
    match goal with |- context [column_3743 ?a ?b ?ty ?d ?e] => replace (column_3743 a b ty d e) with (g2, Done) by (symmetry; exact K3) end.
    destruct (column_spec force c None _ _ _ _ K5 Hc H7) as [ev3 [g3 [K6 [K7 K8]]]].
    match goal with |- context [column_3743 ?a ?b ?ty ?d ?e] => replace (column_3743 a b ty d e) with (g3, Done) by (symmetry; exact K6) end.
    exists ev3, g3. split; [reflexivity|]. split; [|exact K8]. econstructor; [exact K0|]. eapply turns_app; eauto.
  Qed.
  Lemma strip_prefix_head : forall p s a r b q, s = a :: r -> p = b :: q -> a <> b -> TableModel.strip_prefix p s = None.
  Proof. intros p s a r b q -> -> H. cbn. destruct (N.eqb_spec b a); [congruence|reflexivity]. Qed.
  Lemma match_3743_some : forall s n rest, unit_of s n -> match_3743 (s ++ rest) <> None.
  Proof.
    intros s n rest Hs. unfold match_3743. destruct (unit_shape _ _ Hs) as [p [d [-> [Hp [Hl [Hd _]]]]]].
      destruct ((p ++ d) ++ rest) as [|x y] eqn:E.
      { exfalso. apply app_eq_nil in E. destruct E as [E _]. apply app_eq_nil in E. destruct E as [_ ->]. cbn in Hl. lia. }
      rewrite <- E. rewrite E at 1. cbn [length match_units]. rewrite <- app_assoc.
      rewrite match_unit_prefix; auto; [|intro; subst d; cbn in Hl; lia].
      destruct (match_hex (d ++ rest)) as [[d' t']|] eqn:Em.
      + assert (Hd' : d' <> []).
        { unfold match_hex in Em. destruct (take_hex 6 (d ++ rest)) as [d2 t2]. destruct (Nat.leb_spec 4 (length d2)); [|discriminate].
          injection Em as <- _. intro; subst; cbn in *; lia. }
        assert (G : forall us : cps, us <> [] -> forall t2, match (let '(us2, t3) := match_units (length y) t2 in (us ++ us2, t3)) with
                      | ([], _) => None | (us2, t3) => match match_refs t3 with Some (ds0, t4) => Some (us2, ds0, t4) | None => Some (us2, [], t3) end end <> None).
        { intros us Hus t2. destruct (match_units (length y) t2) as [us2 t3]. destruct us as [|q us]; [contradiction|]. cbn [app].
          destruct (match_refs t3) as [[? ?]|]; discriminate. }
        destruct t' as [|k t']; [|destruct (N.eqb k 32)]; apply G; intro E2; apply app_eq_nil in E2; destruct E2 as [_ E2];
          try (apply app_eq_nil in E2; destruct E2 as [E2 _]); contradiction.
      + exfalso. unfold match_hex in Em. destruct (take_hex 6 (d ++ rest)) as [d2 t2] eqn:Et.
        destruct (Nat.leb_spec 4 (length d2)) as [|Hlt]; [discriminate|].
        destruct (take_hex_spec _ _ _ _ Et) as [K1 [K2 [K3 K4]]]. destruct K4 as [K4|K4]; [lia|].
        assert (Hlen : (length d2 < length d)%nat) by lia. clear -K1 Hd Hlen K4.
        revert d2 K1 Hlen. induction d as [|a d IH]; intros d2 K1 Hlen; [cbn in Hlen; lia|].
        inversion Hd as [|? ? Ha Hd']; subst. destruct d2 as [|b d2].
        * cbn in K1. apply is_hex_iff in Ha. destruct Ha as [v Ha]. eapply K4; [symmetry; exact K1|exact Ha].
        * cbn in K1. injection K1 as _ K1. apply (IH Hd' d2 K1). cbn in Hlen. lia.
  Qed.
  Lemma row_not_header : forall t c ds pref others, row_3743 t c ds pref others ->
    match_reference t = None /\ match_version t = None /\ match_3743 t <> None.
  Proof.
    intros t c ds pref others [u [post [char [more [H1 [H2 [H3 [H4 [H5 _]]]]]]]]].
    destruct H1 as [_ [tail [Ht _]]]. destruct H3 as [_ [Hu _]].
    assert (Hx : exists s n rest, unit_of s n /\ t = s ++ rest).
    { destruct H5 as [units [cited [Hne [Hun [_ Hchar]]]]]. destruct units as [|w units]; [contradiction|].
      inversion Hun as [|? n ? c' Hw Hr]; subst. exists w, n.
      assert (Hj : exists r1, join [32] (w :: units) = w ++ r1) by (destruct units; [exists []; cbn; rewrite app_nil_r; auto|eexists; reflexivity]).
      destruct Hj as [r1 Hj]. rewrite Hj.
      assert (Hj2 : forall x, exists r2, join [59] (x :: more) = x ++ r2) by (intro x; destruct more; [exists []; cbn; rewrite app_nil_r; auto|eexists; reflexivity]).
      destruct (Hj2 ((w ++ r1) ++ cited)) as [r2 Hj3]. rewrite Hj3. rewrite <- !app_assoc. eexists. split; [exact Hw|reflexivity]. }
    destruct Hx as [s [n [rest [Hs Hts]]]]. destruct (unit_starts _ _ Hs) as [a [r [Es Ha]]].
    assert (Hh : t = a :: (r ++ rest)) by (rewrite Hts, Es; reflexivity).
    assert (Hra : a <> 82 /\ a <> 86) by (destruct Ha as [Ha| ->]; [apply is_hex_range in Ha; lia|lia]).
    split; [|split].
    - unfold match_reference, match_numbered. rewrite (strip_prefix_head (txt "Reference") t a _ 82 (txt "eference") Hh eq_refl) by tauto. reflexivity.
    - unfold match_version, match_numbered. rewrite (strip_prefix_head (txt "Version") t a _ 86 (txt "ersion") Hh eq_refl) by tauto. reflexivity.
    - rewrite Hts. eapply match_3743_some; eauto.
  Qed.
