(** Proofs about the general rules and the reports without reference. *)
From Verif Require Import Base BaseFacts CharModel RepSpec RepProofs RepFinal StatsNamed LabelSpec LabelProofs LgrModel LgrProofs UtilsModel UtilsProofs TableSpec TableParts
  ReviewModel ReviewSpec ReviewRepertoire ReviewRules LangModel LangSpec LangProofs GeneralModel GeneralSpec.
Open Scope string_scope.
Open Scope list_scope.

(** ** The repertoire *)
Lemma listed_lookup : forall r ch, reachable r -> (In ch (all_repertoire r true true) <-> lookup r (ch_cp ch) = Some ch).
Proof.
  intros r ch Hr. destruct (listing_filtered r true true Hr) as [_ H]. rewrite H. intuition discriminate.
Qed.
Lemma listed_cp : forall r c ch, reachable r -> lookup r c = Some ch -> In ch (all_repertoire r true true) /\ ch_cp ch = c.
Proof.
  intros r c ch Hr H. rewrite lookup_lk in H. pose proof (lk_cp _ _ _ H) as E. split; [|exact E]. apply listed_lookup; [exact Hr|]. rewrite lookup_lk, E. exact H.
Qed.
Lemma singles_In : forall r c, reachable r -> (In c (singles r) <-> has_single r c).
Proof.
  intros r c Hr. unfold singles, has_single. rewrite in_flat_map. split.
  - intros (ch & H & K). apply listed_lookup in H; [|exact Hr]. destruct (ch_cp ch) as [|x [|y t]]; cbn [In] in K; try contradiction. destruct K as [->|[]]. exists ch. exact H.
  - intros (ch & H). destruct (listed_cp r [c] ch Hr H) as [H1 H2]. exists ch. split; [exact H1|]. rewrite H2. left. reflexivity.
Qed.
Lemma singles_NoDup : forall r, reachable r -> NoDup (singles r).
Proof.
  intros r Hr. unfold singles. destruct (listing_filtered r true true Hr) as [H _]. revert H. generalize (all_repertoire r true true). intros l.
  induction l as [|ch l IH]; intros H; [constructor|]. cbn [map flat_map] in *. inversion H as [|? ? Hn Hl]. subst. specialize (IH Hl).
  destruct (ch_cp ch) as [|x [|y t]] eqn:E; cbn [app]; try exact IH. constructor; [|exact IH]. intros K. apply in_flat_map in K.
  destruct K as (ch' & K1 & K2). apply Hn. apply in_map_iff. exists ch'. split; [|exact K1].
  destruct (ch_cp ch') as [|x' [|y' t']]; cbn [In] in K2; try contradiction. destruct K2 as [->|[]]. reflexivity.
Qed.
Lemma exists_single : forall r p, reachable r -> (existsb p (singles r) = true <-> exists c, has_single r c /\ p c = true).
Proof.
  intros r p Hr. rewrite existsb_exists. split; intros (c & H & K); exists c; split; auto; apply (singles_In r c Hr); exact H.
Qed.
Lemma many_digits_iff : forall d r, reachable r -> (many_digits d r = true <-> over_ten r d).
Proof.
  intros d r Hr. unfold many_digits, nbr_digits, over_ten. rewrite Nat.ltb_lt. split.
  - intros H. exists (filter d (singles r)). split; [apply NoDup_filter, singles_NoDup, Hr|]. split; [exact H|].
    intros c Hc. apply filter_In in Hc. destruct Hc as [H1 H2]. split; [apply (singles_In r c Hr); exact H1 | exact H2].
  - intros (l & Hn & Hl & K). eapply Nat.lt_le_trans; [exact Hl|]. apply NoDup_incl_length; [exact Hn|].
    intros c Hc. destruct (K c Hc) as [K1 K2]. apply filter_In. split; [apply singles_In; assumption | exact K2].
Qed.
Lemma in_rep_lookup : forall r c, c <> [] -> (in_rep r c = true <-> exists ch, lookup r c = Some ch).
Proof.
  intros r c Hc. unfold in_rep. rewrite (rep_contains_lk r c Hc), lookup_lk. destruct (lk r c) as [ch|]; split; intros H; eauto; try discriminate; try (destruct H as (? & H); discriminate H).
Qed.
Lemma lookup_nonempty : forall r c ch, lookup r c = Some ch -> c <> [].
Proof. intros r c ch H ->. discriminate H. Qed.

(** ** Code points without rule, absent from the reference *)
Theorem additional_spec : forall r ref, reachable r ->
  NoDup (additional_cp r ref) /\ StronglySorted (fun a b => cps_leb a b = true) (additional_cp r ref) /\
  forall c, In c (additional_cp r ref) <->
    (exists ch, lookup r c = Some ch /\ truthy (ch_when ch) = false /\ truthy (ch_not_when ch) = false) /\ lookup ref c = None.
Proof.
  intros r ref Hr. unfold additional_cp. split; [|split; [apply (isort_sorted cps_leb cps_leb_total cps_leb_trans)|]].
  - apply isort_NoDup. destruct (listing_filtered r true true Hr) as [H _]. revert H. generalize (all_repertoire r true true). intros l.
    induction l as [|ch l IH]; intros H; [constructor|]. cbn [map filter] in *. inversion H as [|? ? Hn Hl]. subst.
    destruct (_ && _); [|exact (IH Hl)]. cbn [map]. constructor; [|exact (IH Hl)]. intros K. apply Hn. apply in_map_iff in K. destruct K as (ch' & E & K).
    apply filter_In in K. apply in_map_iff. exists ch'. split; [exact E | apply K].
  - intros c. rewrite isort_In, in_map_iff. split.
    + intros (ch & <- & H). apply filter_In in H. destruct H as [H K]. apply listed_lookup in H; [|exact Hr].
      rewrite !andb_true_iff, !negb_true_iff in K. destruct K as [[K1 K2] K3]. split; [eauto|].
      destruct (lookup ref (ch_cp ch)) as [x|] eqn:E; [|reflexivity]. exfalso.
      assert (T : in_rep ref (ch_cp ch) = true) by (apply in_rep_lookup; [apply (lookup_nonempty _ _ _ H) | eauto]). congruence.
    + intros [(ch & H & K1 & K2) K3]. destruct (listed_cp r c ch Hr H) as [H1 H2]. exists ch. split; [exact H2|]. apply filter_In. split; [exact H1|].
      rewrite K1, K2, H2. destruct (in_rep ref c) eqn:E; [|reflexivity]. apply in_rep_lookup in E; [|apply (lookup_nonempty _ _ _ H)]. destruct E as (x & E). congruence.
Qed.

(** ** Whether a rule exists *)
Lemma try_said : forall r test, wf_rep r -> forall labels x y, (forall l, In l labels -> l <> []) ->
  try_labels test r labels x = Ok y ->
  (labels = [] /\ y = x) \/ (labels <> [] /\ said r test labels y).
Proof.
  intros r test Hr. induction labels as [|l labels IH]; intros x y Hl H; cbn [try_labels] in H; [injection H as <-; auto|]. right. split; [discriminate|].
  pose proof (label_answer r l Hr (Hl l (or_introl eq_refl))) as K. destruct (check_label_in r l) as [inside|e]; [|discriminate H]. cbn [bind] in H.
  destruct inside.
  - assert (M : made_of r l) by (apply K; reflexivity). destruct (test l) as [ok|e] eqn:T; [|discriminate H]. cbn [bind] in H. destruct ok.
    + injection H as <-. exists [], l, labels. split; [reflexivity|]. split; [constructor|]. split; assumption.
    + assert (R : refused r test l) by (split; assumption).
      destruct (IH _ _ (fun a Ha => Hl a (or_intror Ha)) H) as [[-> ->] | [Hn S]].
      * split; [discriminate | constructor; [exact R | constructor]].
      * destruct y as [[|]|]; cbn [said] in S |- *.
        -- split; [discriminate | constructor; [exact R | apply S]].
        -- destruct S as (b & z & a & -> & Hb & Hz). exists (l :: b), z, a. split; [reflexivity|]. split; [constructor; assumption | exact Hz].
        -- destruct S as [-> | (b & z & a & -> & Hb & Hz)]; [contradiction|]. right. exists (l :: b), z, a. split; [reflexivity|]. split; [constructor; assumption | exact Hz].
  - injection H as <-. right. exists [], l, labels. split; [reflexivity|]. split; [constructor|]. intros M. apply K in M. discriminate M.
Qed.
Lemma report_said : forall r test tags cond coll a x, wf_rep r -> (forall l, In l (get_labels tags coll) -> l <> []) ->
  make_report test r tags cond coll = Ok (a, x) ->
  a = cond /\ (cond = false -> x = None) /\ (cond = true -> said r test (get_labels tags coll) x).
Proof.
  intros r test tags cond coll a x Hr Hl H. unfold make_report in H. destruct cond.
  - destruct (try_labels test r (get_labels tags coll) None) as [y|e] eqn:E; [|discriminate H]. injection H as <- <-.
    split; [reflexivity|]. split; [discriminate|]. intros _. destruct (try_said r test Hr _ _ _ Hl E) as [[E1 ->] | [_ S]]; [left; exact E1 | exact S].
  - injection H as <- <-. split; [reflexivity|]. split; [reflexivity | discriminate].
Qed.
(** The three cases exclude each other. *)
Lemma first_bad : forall (P Q R : cps -> Prop) b z a b' z' a', (forall l, P l -> Q l -> False) -> (forall l, P l -> R l -> False) -> (forall l, Q l -> R l -> False) ->
  b ++ z :: a = b' ++ z' :: a' -> Forall P b -> Forall P b' -> Q z -> R z' -> False.
Proof.
  intros P Q R. induction b as [|x b IH]; intros z a [|x' b'] z' a' PQ PR QR E Hb Hb' Hz Hz'; cbn [app] in E; injection E as E1 E2; subst.
  - exact (QR _ Hz Hz').
  - inversion Hb'. subst. eauto.
  - inversion Hb. subst. eauto.
  - inversion Hb. inversion Hb'. subst. eapply (IH z a b' z' a'); eassumption.
Qed.
Lemma Forall_mid : forall (P : cps -> Prop) b z a, Forall P (b ++ z :: a) -> P z.
Proof. intros P b z a H. rewrite Forall_forall in H. apply H, in_or_app. right. left. reflexivity. Qed.
Theorem said_unique : forall r test labels x y, said r test labels x -> said r test labels y -> x = y.
Proof.
  intros r test labels.
  assert (RA : forall l, refused r test l -> accepted r test l -> False) by (intros l [_ A] [_ B]; congruence).
  assert (RN : forall l, refused r test l -> ~ made_of r l -> False) by (intros l [A _] B; contradiction).
  assert (AN : forall l, accepted r test l -> ~ made_of r l -> False) by (intros l [A _] B; contradiction).
  assert (TF : said r test labels (Some true) -> said r test labels (Some false) -> False).
  { intros [_ H] (b & z & a & -> & _ & Hz). apply Forall_mid in H. eauto. }
  assert (TN : said r test labels (Some true) -> said r test labels None -> False).
  { intros [Hn H] [K|(b & z & a & -> & _ & Hz)]; [contradiction|]. apply Forall_mid in H. eauto. }
  assert (FN : said r test labels (Some false) -> said r test labels None -> False).
  { intros (b & z & a & -> & Hb & Hz) [K|(b' & z' & a' & E & Hb' & Hz')]; [destruct b; discriminate K|].
    eapply (first_bad (refused r test) (accepted r test) (fun l => ~ made_of r l) b z a b' z' a'); eassumption. }
  intros [[|]|] [[|]|] Hx Hy; try reflexivity; exfalso; eauto.
Qed.
(** Without sequences a verdict is always reached. *)
Lemma try_total : forall r test, wf_rep r -> (forall ch, entry r ch -> is_seq ch = false) -> (forall l, exists b, test l = Ok b) ->
  forall labels x, (forall l, In l labels -> l <> []) -> exists y, try_labels test r labels x = Ok y.
Proof.
  intros r test Hr Hs Ht. induction labels as [|l labels IH]; intros x Hl; cbn [try_labels]; [eauto|].
  pose proof (label_answer r l Hr (Hl l (or_introl eq_refl))) as K. destruct (check_label_in r l) as [inside|e]; cbn [bind].
  - destruct inside; [|eauto]. destruct (Ht l) as (b & ->). cbn [bind]. destruct b; [eauto|]. apply IH. intros a Ha. apply Hl. right. exact Ha.
  - destruct K as (_ & ch & K1 & K2). rewrite (Hs ch K1) in K2. discriminate K2.
Qed.

(** ** The labels *)
Lemma labels_each : forall (P : cps -> Prop) coll, Forall (fun p : cps * list cps => Forall P (snd p)) coll -> forall tags l, In l (get_labels tags coll) -> P l.
Proof.
  intros P coll H tags l Hl. unfold get_labels in Hl. apply in_flat_map in Hl. destruct Hl as (t & _ & Hl).
  destruct (dget cps_eqb (same_script t) coll) as [ls|] eqn:E; [|destruct Hl]. apply (dget_In _ cps_eqb_eq) in E.
  rewrite Forall_forall in H. specialize (H _ E). cbn [snd] in H. rewrite Forall_forall in H. exact (H l Hl).
Qed.
Definition begins_markb (l : cps) : bool := match l with c :: _ => existsb (fun p : N * N => N.leb (fst p) c && N.leb c (snd p)) mark_ranges | [] => false end.
Lemma begins_markb_sound : forall l, begins_markb l = true -> begins_mark l.
Proof.
  intros [|c s] H; [discriminate H|]. exists c, s. split; [reflexivity|]. unfold begins_markb in H. apply existsb_exists in H. destruct H as ([a b] & H & K).
  cbn [fst snd] in K. rewrite andb_true_iff, !N.leb_le in K. exists a, b. auto.
Qed.
Lemma checked_labels : forall (P : cps -> Prop) (p : cps -> bool) coll, (forall l, p l = true -> P l) ->
  forallb (fun x : cps * list cps => forallb p (snd x)) coll = true -> forall tags l, In l (get_labels tags coll) -> P l.
Proof.
  intros P p coll Hp H. apply labels_each. rewrite forallb_forall in H. apply Forall_forall. intros x Hx. specialize (H x Hx). rewrite forallb_forall in H.
  apply Forall_forall. intros l Hl. apply Hp, H, Hl.
Qed.
Theorem mark_labels : forall tags l, In l (get_labels tags combining_mark_labels) -> begins_mark l.
Proof. apply (checked_labels _ _ _ begins_markb_sound). vm_compute. reflexivity. Qed.
Definition bad_hyphenb (l : cps) : bool :=
  match l with
  | c :: _ => if N.eqb c 45 then true else if N.eqb (last l 0) 45 then true else
      match l with _ :: _ :: x :: y :: _ => N.eqb x 45 && N.eqb y 45 | _ => false end
  | [] => false
  end.
Lemma bad_hyphenb_sound : forall l, bad_hyphenb l = true -> bad_hyphen l.
Proof.
  intros [|c s] H; [discriminate H|]. unfold bad_hyphenb in H. destruct (N.eqb c 45) eqn:E1; [apply N.eqb_eq in E1; subst c; left; eauto|].
  destruct (N.eqb (last (c :: s) 0%N) 45) eqn:E2.
  - apply N.eqb_eq in E2. right. left. exists (removelast (c :: s)). rewrite <- E2. apply app_removelast_last. discriminate.
  - destruct s as [|b [|x [|y s]]]; try discriminate H. apply andb_true_iff in H. rewrite !N.eqb_eq in H. destruct H as [-> ->]. right. right. eauto.
Qed.
Theorem hyphen_labels : forall tags l, In l (get_labels tags consecutive_hyphen_labels) -> bad_hyphen l.
Proof. apply (checked_labels _ _ _ bad_hyphenb_sound). vm_compute. reflexivity. Qed.
Definition zero_of (c : N) : option N := find (fun z => N.leb z c && N.ltb c (z + 10)) zeros.
Lemma zero_of_digit : forall c z, zero_of c = Some z -> digit_of z c.
Proof. intros c z H. apply find_some in H. destruct H as [H K]. rewrite andb_true_iff, N.leb_le, N.ltb_lt in K. split; assumption. Qed.
Definition begins_digitb (l : cps) : bool := match l with c :: _ => match zero_of c with Some _ => true | None => false end | [] => false end.
Lemma begins_digitb_sound : forall l, begins_digitb l = true -> begins_digit l.
Proof. intros [|c s] H; [discriminate H|]. cbn [begins_digitb] in H. destruct (zero_of c) as [z|] eqn:E; [|discriminate H]. exists z, c, s. split; [reflexivity | apply zero_of_digit, E]. Qed.
Theorem digit_labels : forall tags l, In l (get_labels tags begin_digit_labels) -> begins_digit l.
Proof. apply (checked_labels _ _ _ begins_digitb_sound). vm_compute. reflexivity. Qed.
Definition mixesb (l : cps) : bool :=
  existsb (fun c => existsb (fun c' => match zero_of c, zero_of c' with Some z, Some z' => negb (N.eqb z z') | _, _ => false end) l) l.
Lemma mixesb_sound : forall l, mixesb l = true -> mixes_digits l.
Proof.
  intros l H. unfold mixesb in H. apply existsb_exists in H. destruct H as (c & Hc & H). apply existsb_exists in H. destruct H as (c' & Hc' & H).
  destruct (zero_of c) as [z|] eqn:E; [|discriminate H]. destruct (zero_of c') as [z'|] eqn:E'; [|discriminate H]. apply negb_true_iff, N.eqb_neq in H.
  exists z, z', c, c'. split; [exact H|]. split; [apply zero_of_digit, E|]. split; [apply zero_of_digit, E' | auto].
Qed.
Theorem mixed_labels : forall tags l, In l (get_labels tags multiple_digit_sets_labels) -> mixes_digits l.
Proof. apply (checked_labels _ _ _ mixesb_sound). vm_compute. reflexivity. Qed.
Definition japaneseb (c : N) : bool :=
  N.leb 0x3041 c && N.leb c 0x3096 || N.leb 0x30A1 c && N.leb c 0x30FA || N.leb 0x3400 c && N.leb c 0x4DBF || N.leb 0x4E00 c && N.leb c 0x9FFF.
Definition lone_dotb (l : cps) : bool := memb N.eqb 0x30FB%N l && forallb (fun c => negb (japaneseb c)) l.
Lemma lone_dotb_sound : forall l, lone_dotb l = true -> lone_dot l.
Proof.
  intros l H. apply andb_true_iff in H. destruct H as [H K]. split; [apply (memb_In _ _ N_eqb_iff), H|]. rewrite forallb_forall in K.
  intros c Hc J. specialize (K c Hc). apply negb_true_iff in K. assert (T : japaneseb c = true); [|congruence].
  unfold japaneseb. rewrite !orb_true_iff, !andb_true_iff, !N.leb_le. unfold japanese in J. tauto.
Qed.
Theorem dot_labels : forall tags l, In l (get_labels tags japanese_contextj_labels) -> lone_dot l.
Proof. apply (checked_labels _ _ _ lone_dotb_sound). vm_compute. reflexivity. Qed.
Lemma nonempty_mark : forall tags l, In l (get_labels tags combining_mark_labels) -> l <> [].
Proof. intros tags l H ->. apply mark_labels in H. destruct H as (c & s & H & _). discriminate H. Qed.
Lemma nonempty_hyphen : forall tags l, In l (get_labels tags consecutive_hyphen_labels) -> l <> [].
Proof. intros tags l H ->. apply hyphen_labels in H. destruct H as [(s & H)|[([|? s] & H)|(a & b & s & H)]]; discriminate H. Qed.
Lemma nonempty_digit : forall tags l, In l (get_labels tags begin_digit_labels) -> l <> [].
Proof. intros tags l H ->. apply digit_labels in H. destruct H as (z & c & s & H & _). discriminate H. Qed.
Lemma nonempty_mixed : forall tags l, In l (get_labels tags multiple_digit_sets_labels) -> l <> [].
Proof. intros tags l H ->. apply mixed_labels in H. destruct H as (z & z' & c & c' & _ & _ & _ & H & _). destruct H. Qed.
Lemma nonempty_dot : forall tags l, In l (get_labels tags japanese_contextj_labels) -> l <> [].
Proof. intros tags l H ->. apply dot_labels in H. destruct H as [H _]. destruct H. Qed.

Theorem labels_app : forall a b coll, get_labels (a ++ b) coll = get_labels a coll ++ get_labels b coll.
Proof. intros. apply flat_map_app. Qed.
Theorem hyphen_each : forall t, In t own_labels ->
  (exists s, s <> [] /\ In (45%N :: s) (get_labels [txt t] consecutive_hyphen_labels)) /\
  (exists s, s <> [] /\ In (s ++ [45%N]) (get_labels [txt t] consecutive_hyphen_labels)) /\
  (exists a b s, s <> [] /\ In (a :: b :: 45%N :: 45%N :: s) (get_labels [txt t] consecutive_hyphen_labels)).
Proof.
  intros t H. cbn [own_labels In] in H.
  repeat (destruct H as [<-|H]; [
    repeat split; [ eexists; split; [|left; vm_compute; reflexivity]; discriminate
                  | match goal with |- exists s, _ /\ In _ ?L => let v := eval vm_compute in L in
                      match v with _ :: [?a; ?b; _] :: _ => exists [a; b]; split; [discriminate | right; left; vm_compute; reflexivity] end end
                  | eexists _, _, _; split; [|right; right; left; vm_compute; reflexivity]; discriminate ] |]). destruct H.
Qed.
Theorem alike_labels : forall k ts t coll, In (k, ts) alike -> In t ts -> get_labels [txt t] coll = get_labels [txt k] coll.
Proof.
  intros k ts t coll H K. unfold get_labels. cbn [flat_map]. assert (E : same_script (txt t) = same_script (txt k)); [|rewrite E; reflexivity].
  assert (G : forallb (fun p : string * list string => forallb (fun t => cps_eqb (same_script (txt t)) (same_script (txt (fst p)))) (snd p)) alike = true) by (vm_compute; reflexivity).
  rewrite forallb_forall in G. specialize (G _ H). cbn [fst snd] in G. rewrite forallb_forall in G. apply cps_eqb_eq, G, K.
Qed.
Theorem stranger_labels : forall k t coll, In (k, t) strangers -> get_labels [txt t] coll = get_labels [txt k] coll.
Proof. intros k t coll H. cbn [strangers In] in H. repeat (destruct H as [H|H]; [injection H as <- <-; reflexivity|]). destruct H. Qed.

(** ** The report *)
Lemma general_parts : forall d m rtl srtl test r scripts tags g, general_rules d m rtl srtl test r scripts tags = Ok g ->
  make_report test r tags (has_mark m r) combining_mark_labels = Ok (ge_mark g) /\
  make_report test r tags (in_rep r [45%N]) consecutive_hyphen_labels = Ok (ge_hyphen g) /\
  make_report test r tags (table_rtl rtl srtl r scripts tags && has_digits d r) begin_digit_labels = Ok (ge_rtl g) /\
  make_report test r tags (many_digits d r) multiple_digit_sets_labels = Ok (ge_digits g) /\
  make_report test r tags (in_rep r [12539%N]) japanese_contextj_labels = Ok (ge_contextj g).
Proof.
  intros d m rtl srtl test r scripts tags g H. unfold general_rules in H.
  repeat match type of H with bind ?x _ = _ => destruct x eqn:?; [|discriminate H]; cbn [bind] in H end. injection H as <-. cbn. auto.
Qed.
Lemma bool_prop : forall a b (P : Prop), a = b -> (b = true <-> P) -> (a = true <-> P).
Proof. intros a b P -> H. exact H. Qed.
Lemma report_part : forall r test tags cond coll p (P : Prop), wf_rep r -> (forall l, In l (get_labels tags coll) -> l <> []) ->
  make_report test r tags cond coll = Ok p -> (cond = true <-> P) ->
  (fst p = true <-> P) /\ (P -> said r test (get_labels tags coll) (snd p)) /\ (~ P -> snd p = None).
Proof.
  intros r test tags cond coll [a x] P Hr Hl H HP. destruct (report_said r test tags cond coll a x Hr Hl H) as (-> & H1 & H2). cbn [fst snd].
  split; [exact HP|]. split; [intros K; apply H2, HP, K|]. intros K. apply H1. destruct cond; [|reflexivity]. exfalso. apply K, HP. reflexivity.
Qed.
Theorem general_report : forall d m rtl srtl test r scripts tags g, reachable r ->
  general_rules d m rtl srtl test r scripts tags = Ok g ->
  let part p (P : Prop) labels := (fst p = true <-> P) /\ (P -> said r test labels (snd p)) /\ (~ P -> snd p = None) in
  part (ge_mark g) (exists c, has_single r c /\ m c = true) (get_labels tags combining_mark_labels) /\
  part (ge_hyphen g) (has_single r 45) (get_labels tags consecutive_hyphen_labels) /\
  part (ge_rtl g) (((exists s, In s scripts /\ srtl s = true) \/ (tags = [] /\ exists c, has_single r c /\ rtl c = true)) /\
                   exists c, has_single r c /\ d c = true) (get_labels tags begin_digit_labels) /\
  part (ge_digits g) (over_ten r d) (get_labels tags multiple_digit_sets_labels) /\
  part (ge_contextj g) (has_single r 12539) (get_labels tags japanese_contextj_labels).
Proof.
  intros d m rtl srtl test r scripts tags g Hr H part. pose proof (reachable_wf r Hr) as Hw. subst part. cbv beta.
  destruct (general_parts _ _ _ _ _ _ _ _ _ H) as (H1 & H2 & H3 & H4 & H5).
  split; [|split; [|split; [|split]]].
  - eapply report_part; [exact Hw|exact (nonempty_mark tags)|exact H1|apply exists_single, Hr].
  - eapply report_part; [exact Hw|exact (nonempty_hyphen tags)|exact H2|apply in_rep_lookup; discriminate].
  - eapply report_part; [exact Hw|exact (nonempty_digit tags)|exact H3|].
    rewrite andb_true_iff. unfold table_rtl, has_digits. rewrite orb_true_iff, andb_true_iff, negb_true_iff, existsb_exists.
      rewrite !(exists_single r _ Hr). assert (E : nonempty tags = false <-> tags = []) by (destruct tags; cbn [nonempty]; split; congruence). rewrite E. reflexivity.
  - eapply report_part; [exact Hw|exact (nonempty_mixed tags)|exact H4|apply many_digits_iff, Hr].
  - eapply report_part; [exact Hw|exact (nonempty_dot tags)|exact H5|apply in_rep_lookup; discriminate].
Qed.
Theorem general_total : forall d m rtl srtl test r scripts tags, reachable r -> (forall c ch, lookup r c = Some ch -> is_seq ch = false) ->
  (forall l, exists b, test l = Ok b) -> exists g, general_rules d m rtl srtl test r scripts tags = Ok g.
Proof.
  intros d m rtl srtl test r scripts tags Hr Hs Ht. pose proof (reachable_wf r Hr) as Hw.
  assert (K : forall cond coll, (forall l, In l (get_labels tags coll) -> l <> []) -> exists p, make_report test r tags cond coll = Ok p).
  { intros cond coll Hl. unfold make_report. destruct cond; [|eexists; reflexivity].
    destruct (try_total r test Hw (fun ch H => Hs _ ch H) Ht _ None Hl) as (y & ->). eexists. reflexivity. }
  unfold general_rules.
  destruct (K (has_mark m r) combining_mark_labels) as (a & ->); [exact (nonempty_mark tags)|]. cbn [bind].
  destruct (K (in_rep r [45%N]) consecutive_hyphen_labels) as (b & ->); [exact (nonempty_hyphen tags)|]. cbn [bind].
  destruct (K (table_rtl rtl srtl r scripts tags && has_digits d r) begin_digit_labels) as (c & ->); [exact (nonempty_digit tags)|]. cbn [bind].
  destruct (K (many_digits d r) multiple_digit_sets_labels) as (e & ->); [exact (nonempty_mixed tags)|]. cbn [bind].
  destruct (K (in_rep r [12539%N]) japanese_contextj_labels) as (f & ->); [exact (nonempty_dot tags)|]. cbn [bind]. eexists. reflexivity.
Qed.

(** ** The tags *)
Theorem tags_spec : forall tags languages, tags_from tags languages (table_tags tags languages).
Proof.
  intros tags languages. unfold tags_from, table_tags.
  exists (isort cps_leb languages), (map (fun l => match tg_language (tags l) with Some x => [ln_format x] | None => [] end) (isort cps_leb languages)).
  split; [apply isort_perm|]. split; [apply (isort_sorted cps_leb cps_leb_total cps_leb_trans)|]. generalize (isort cps_leb languages). intros o. split; [|split].
  - induction o as [|t o IH]; cbn [map]; constructor; [|exact IH]. intros l. unfold names_language. destruct (tg_language (tags t)) as [x|].
    + split; [intros H; injection H as <-; eauto | intros (y & H & ->); injection H as <-; reflexivity].
    + split; [discriminate | intros (y & H & _); discriminate H].
  - apply Forall_forall. intros ls H. apply in_map_iff in H. destruct H as (t & <- & _). destruct (tg_language (tags t)); cbn [length]; lia.
  - rewrite flat_map_concat_map. reflexivity.
Qed.
Theorem table_uses : forall d m rtl srtl test tags r languages reference,
  table_general d m rtl srtl test tags r languages reference =
  general_rules d m rtl srtl test r (get_scripts tags languages true)
    (match table_tags tags languages, reference with [], Some l => table_tags tags l | own, _ => own end).
Proof. intros. unfold table_general. destruct (table_tags tags languages); [destruct reference|]; reflexivity. Qed.

(** ** Reports without reference *)
Lemma not_invalid : forall prop c, c <> [] -> (forall x, ~ In 32%N (prop x)) -> (is_invalid (props_text prop c) = false <-> forall x, In x c -> prop x = txt "PVALID").
Proof.
  intros prop c Hc Hp. unfold is_invalid, props_text.
  assert (E : split_on 32 (join [32%N] (map prop c)) = map prop c).
  { apply split_on_is. split; [|split; [reflexivity|]].
    - intros K. apply Hc. destruct c; [reflexivity | discriminate K].
    - apply Forall_forall. intros x Hx. apply in_map_iff in Hx. destruct Hx as (y & <- & _). apply Hp. }
  match goal with |- context [split_on ?a ?b] => replace (split_on a b) with (map prop c) by (symmetry; exact E) end.
  rewrite negb_false_iff, forallb_forall. split.
  - intros H x Hx. symmetry. apply cps_eqb_eq, H, in_map, Hx.
  - intros H x Hx. apply in_map_iff in Hx. destruct Hx as (y & <- & Hy). apply cps_eqb_eq. symmetry. apply H, Hy.
Qed.
Lemma filter_both : forall {A} (p : A -> bool) l, (length (filter p l) + length (filter (fun x => negb (p x)) l) = length l)%nat.
Proof. intros A p. induction l as [|x l IH]; [reflexivity|]. cbn [filter]. destruct (p x); cbn [negb length]; lia. Qed.
Theorem core_report : forall prop r report valid invalid, reachable r -> (forall x, ~ In 32%N (prop x)) ->
  repertoire_core_report prop r = (report, valid, invalid) ->
  NoDup (map fst report) /\ (forall c, In c (map fst report) <-> exists ch, lookup r c = Some ch) /\
  (forall c text, In (c, text) report -> text = join [32%N] (map prop c)) /\
  (valid + invalid = length report)%nat /\
  exists l, NoDup l /\ length l = valid /\ forall c, In c l <-> all_valid_entry r prop c.
Proof.
  intros prop r report valid invalid Hr Hp H. unfold repertoire_core_report in H. injection H as <- <- <-.
  set (rep := map (fun ch => (ch_cp ch, props_text prop (ch_cp ch))) (all_repertoire r true true)).
  assert (F : map fst rep = map ch_cp (all_repertoire r true true)) by (unfold rep; rewrite map_map; reflexivity).
  assert (N : NoDup (map fst rep)) by (rewrite F; apply (listing_filtered r true true Hr)).
  assert (I : forall c, In c (map fst rep) <-> exists ch, lookup r c = Some ch).
  { intros c. rewrite F, in_map_iff. split.
    - intros (ch & <- & K). apply listed_lookup in K; [eauto | exact Hr].
    - intros (ch & K). destruct (listed_cp r c ch Hr K) as [K1 K2]. eauto. }
  assert (T : forall c text, In (c, text) rep -> text = join [32%N] (map prop c)).
  { intros c text K. unfold rep in K. apply in_map_iff in K. destruct K as (ch & K & _). injection K as <- <-. reflexivity. }
  pose proof (filter_both (fun x : cps * cps => is_invalid (snd x)) rep) as B.
  split; [exact N|]. split; [exact I|]. split; [exact T|]. split; [unfold rep, cps in *; lia|].
  exists (map fst (filter (fun x => negb (is_invalid (snd x))) rep)). split; [|split].
  - clear - N. induction rep as [|x l IH]; [constructor|]. cbn [map filter] in *. inversion N as [|? ? Hn Hl]. subst. destruct (negb _); [|exact (IH Hl)]. cbn [map].
    constructor; [|exact (IH Hl)]. intros K. apply Hn. apply in_map_iff in K. destruct K as (y & E & K). apply filter_In in K. apply in_map_iff. exists y. split; [exact E | apply K].
  - rewrite map_length. unfold rep, cps in *. lia.
  - intros c. unfold all_valid_entry. rewrite in_map_iff. split.
    + intros ([c' text] & <- & K). apply filter_In in K. destruct K as [K1 K2]. cbn [fst snd] in *. apply negb_true_iff in K2. pose proof (T _ _ K1) as E.
      assert (P : exists ch, lookup r c' = Some ch) by (apply I, in_map_iff; exists (c', text); auto).
      split; [exact P|]. destruct P as (ch & P). subst text. apply (not_invalid prop c' (lookup_nonempty _ _ _ P) Hp). exact K2.
    + intros [P V]. pose proof (proj2 (I c) P) as Q. apply in_map_iff in Q. destruct Q as ([c' text] & E & Q). cbn [fst] in E. subst c'.
      exists (c, text). split; [reflexivity|]. apply filter_In. split; [exact Q|]. cbn [snd]. apply negb_true_iff. rewrite (T _ _ Q).
      destruct P as (ch & P). apply (not_invalid prop c (lookup_nonempty _ _ _ P) Hp). exact V.
Qed.
Theorem variant_core : forall d r, reachable r -> (variant_sets_core_report d r = true <-> over_ten r d).
Proof. exact many_digits_iff. Qed.
