(** The theorems about the review tool. *)
From Coq Require Import Ascii Permutation.
From Verif Require Import Base BaseFacts CharModel RepSpec LgrModel LgrSpec LgrReach LgrProofs ValidateSpec LabelSpec LangModel ReviewModel GeneralModel GeneralSpec GeneralProofs WholeModel WholeSpec WholeTotal HarmToolModel HarmToolSpec HarmToolProofs RevToolModel RevToolSpec RevToolProofs.
Open Scope string_scope.
Open Scope list_scope.

Section Final.
  Variable worlds : idn_table -> world.
  Variable today : cps.
  Variable read : string -> res (option (option cps * idn_table)).
  Notation tool order := (review_tool worlds today order read).
  Notation holds := (holds_review worlds today read).

  Lemma review_of_ok : forall pt pr t r c, parse_file read pt = Ok t -> parse_file read pr = Ok r -> review_of worlds today (t, r) = Ok c ->
    report_of pt pr (name_of (t, r)) /\ holds pt pr c.
  Proof.
    intros pt pr t r c Pt Pr H. unfold review_of, review_pair in H. cbn [fst snd] in H. destruct t as [t|]; [|discriminate H]. destruct r as [r|]; [|discriminate H].
    destruct (parsed_file _ _ _ Pt) as (v & x & Rt & ->). destruct (parsed_file _ _ _ Pr) as (v' & y & Rr & ->). cbn [rt_table] in H.
    split; [apply named; reflexivity|]. destruct (review_lgr (worlds x) x y) as [[w s]|e] eqn:W; [|discriminate H]. cbn [bind] in H. injection H as <-.
    exists (base_name pt), (base_name pr), v, x, v', y, w, s. split; [apply base_of|]. split; [apply base_of|]. auto.
  Qed.
  Lemma unique_name : forall t r f f', report_of t r f -> report_of t r f' -> f = f'.
  Proof. intros t r f f' H H'. apply named in H. apply named in H'. congruence. Qed.

  Lemma content_ok : forall t c, review_of worlds today t = Ok c -> c <> Empty.
  Proof.
    intros [[t|] [r|]] c H; try discriminate H. unfold review_of, review_pair in H. cbn [fst snd] in H. destruct (review_lgr _ _ _) as [p|e]; [|discriminate H]. cbn [bind] in H. injection H as <-. discriminate.
  Qed.

  (** What the directory holds afterwards, whatever happens. *)
  Theorem tool_sound : forall order tables refs dir dir' x, (forall l, Permutation (order l) l) -> tool order tables refs dir = (dir', x) -> forall f,
    dget String.eqb f dir' = dget String.eqb f dir \/
    (exists t r c, In t tables /\ In r refs /\ report_of t r f /\ dget String.eqb f dir' = Some c /\ holds t r c) \/
    (exists e, x = Raise e /\ dget String.eqb f dir' = Some Empty).
  Proof.
    intros order tables refs dir dir' x O E f. destruct (tool_walk _ _ _ O _ _ _ _ _ _ E) as [(-> & _)|(l & y & sk & W & -> & L & _)]; [left; reflexivity|].
    destruct (each_sound _ _ _ _ _ _ W f) as [H|[([t r] & c & I & <- & R & H)|([t r] & e & I & <- & R & -> & H)]]; [left; exact H| |].
    - apply L in I. destruct I as (pt & pr & It & Ir & Pt & Pr). destruct (review_of_ok _ _ _ _ _ Pt Pr R) as [N K]. right. left. exists pt, pr, c. auto.
    - right. right. exists e. split; [reflexivity|exact H].
  Qed.
  (** When it stops, at most one file is left empty. *)
  Theorem tool_stops : forall order tables refs dir dir' e, (forall l, Permutation (order l) l) -> tool order tables refs dir = (dir', Raise e) ->
    dir' = dir \/ exists f, dget String.eqb f dir' = Some Empty /\ forall f', f' <> f -> dget String.eqb f' dir' = dget String.eqb f' dir \/
      exists t r c, In t tables /\ In r refs /\ report_of t r f' /\ dget String.eqb f' dir' = Some c /\ holds t r c.
  Proof.
    intros order tables refs dir dir' e O E. destruct (tool_walk _ _ _ O _ _ _ _ _ _ E) as [(-> & _)|(l & y & sk & W & X & L & _)]; [left; reflexivity|].
    destruct y as [u|e']; [discriminate X|]. right. destruct (each_fails _ _ _ _ _ _ W) as (p & _ & _ & Hp & U). exists (name_of p). split; [exact Hp|]. intros f' N.
    destruct (U f' N) as [H|([t r] & c & I & <- & R & H)]; [left; exact H|]. right. apply L in I. destruct I as (pt & pr & It & Ir & Pt & Pr).
    destruct (review_of_ok _ _ _ _ _ Pt Pr R) as [M K]. exists pt, pr, c. auto.
  Qed.
  (** A success: every pair has its file. *)
  Theorem tool_exact : forall order tables refs dir dir' sk, (forall l, Permutation (order l) l) -> separate tables refs -> tool order tables refs dir = (dir', Ok sk) ->
    (forall t r f, In t tables -> In r refs -> report_of t r f -> exists c, dget String.eqb f dir' = Some c /\ holds t r c) /\
    (forall f, (forall t r, In t tables -> In r refs -> ~ report_of t r f) -> dget String.eqb f dir' = dget String.eqb f dir) /\
    forall p, In p sk <-> In p (refs ++ tables) /\ read p = Ok None.
  Proof.
    intros order tables refs dir dir' sk O S E. destruct (tool_walk _ _ _ O _ _ _ _ _ _ E) as [(_ & (e & X) & _)|(l & y & sk' & W & X & L & K)]; [discriminate X|].
    destruct y as [[]|e]; [|discriminate X]. injection X as <-. split; [|split; [|exact K]].
    - intros t r f It Ir Hf.
      assert (Good : forall pt pr, In pt tables -> In pr refs -> exists o o', parse_file read pt = Ok o /\ parse_file read pr = Ok o').
      { intros pt pr Jt Jr. unfold review_tool in E. destruct (parse_set order read refs) as [[rl rsk]|e] eqn:R; cbn [bind] in E; [|discriminate E].
        destruct (parse_set order read tables) as [[tl tsk]|e] eqn:T; cbn [bind] in E; [|discriminate E].
        destruct (set_spec _ O _ _ _ _ R) as (_ & _ & R3). destruct (set_spec _ O _ _ _ _ T) as (_ & _ & T3). destruct (T3 pt Jt) as (o & Ho). destruct (R3 pr Jr) as (o' & Ho'). eauto. }
      destruct (Good t r It Ir) as (o & o' & Ho & Ho'). assert (I : In (o, o') l) by (apply L; exists t, r; auto).
      assert (All : forall q, In q l -> exists c, review_of worlds today q = Ok c).
      { clear - W. revert dir W. induction l as [|p l IH]; intros dir W q I; [destruct I|]. cbn [each_pair] in W. unfold write_review in W. fold (review_of worlds today p) in W.
        destruct (review_of worlds today p) as [c|e] eqn:R; [|discriminate W]. destruct I as [<-|I]; [eauto|]. exact (IH _ W q I). }
      destruct (All _ I) as (c0 & R0). destruct (review_of_ok _ _ _ _ _ Ho Ho' R0) as [N0 _]. pose proof (unique_name _ _ _ _ Hf N0) as ->.
      destruct (each_ok _ _ _ _ _ W _ I) as ([t' r'] & c & J & En & Rc & D). apply L in J. destruct J as (pt & pr & Jt & Jr & Pt & Pr).
      destruct (review_of_ok _ _ _ _ _ Pt Pr Rc) as [N Kc]. rewrite En in N. destruct (S t r pt pr _ It Jt Ir Jr N0 N) as [<- <-]. exists c. auto.
    - intros f N. destruct (each_sound _ _ _ _ _ _ W f) as [H|[([t r] & c & I & <- & R & H)|([t r] & e & _ & _ & _ & X & _)]]; [exact H| |discriminate X].
      apply L in I. destruct I as (pt & pr & It & Ir & Pt & Pr). destruct (review_of_ok _ _ _ _ _ Pt Pr R) as [M _]. destruct (N pt pr It Ir M).
  Qed.
  Theorem tool_completes : forall order tables refs dir, (forall l, Permutation (order l) l) -> readable read tables -> readable read refs -> completing worlds read tables refs ->
    exists dir', tool order tables refs dir = (dir', Ok []).
  Proof.
    intros order tables refs dir O Rt Rr C. destruct (tool order tables refs dir) as [dir' x] eqn:E.
    destruct (tool_walk _ _ _ O _ _ _ _ _ _ E) as [(_ & _ & p & e & I & H)|(l & y & sk & W & -> & L & K)].
    - apply in_app_or in I. destruct I as [I|I]; [destruct (Rr p I) as (v & z & H') | destruct (Rt p I) as (v & z & H')]; congruence.
    - assert (Es : sk = []).
      { destruct sk as [|p sk]; [reflexivity|]. destruct (proj1 (K p) (or_introl eq_refl)) as [I H]. apply in_app_or in I. destruct I as [I|I]; [destruct (Rr p I) as (v & z & H') | destruct (Rt p I) as (v & z & H')]; congruence. }
      destruct (each_complete worlds today l dir) as (d & Ed).
      + intros [t r] I. apply L in I. destruct I as (pt & pr & It & Ir & Pt & Pr). destruct (Rt pt It) as (v & x & Ht). destruct (Rr pr Ir) as (v' & y' & Hr).
        pose proof (proj1 (file_parsed _ _ _ _) Ht) as Pt'. pose proof (proj1 (file_parsed _ _ _ _) Hr) as Pr'. rewrite Pt in Pt'. rewrite Pr in Pr'. injection Pt' as ->. injection Pr' as ->.
        destruct (C pt pr v x v' y' It Ir Ht Hr) as (w & s & Hw). unfold review_of, review_pair. cbn [fst snd rt_table]. rewrite Hw. cbn [bind]. eauto.
      + rewrite Ed in W. injection W as <- <-. subst sk. exists d. reflexivity.
  Qed.
  (** The order in which the sets come does not matter. *)
  Theorem tool_any_order : forall order order' tables refs dir, (forall l, Permutation (order l) l) -> (forall l, Permutation (order' l) l) -> separate tables refs ->
    readable read tables -> readable read refs -> completing worlds read tables refs ->
    forall f, dget String.eqb f (fst (tool order tables refs dir)) = dget String.eqb f (fst (tool order' tables refs dir)).
  Proof.
    intros order order' tables refs dir O O' S Rt Rr C f. destruct (tool_completes order tables refs dir O Rt Rr C) as (d & E). destruct (tool_completes order' tables refs dir O' Rt Rr C) as (d' & E').
    rewrite E, E'. cbn [fst]. destruct (tool_exact _ _ _ _ _ _ O S E) as (A & B & _). destruct (tool_exact _ _ _ _ _ _ O' S E') as (A' & B' & _).
    assert (D : (exists t r, In t tables /\ In r refs /\ report_of t r f) \/ forall t r, In t tables -> In r refs -> ~ report_of t r f).
    { destruct (existsb (fun t => existsb (fun r => String.eqb f (base_name t ++ "_" ++ base_name r ++ ".json")) refs) tables) eqn:X.
      - left. apply existsb_exists in X. destruct X as (t & It & X). apply existsb_exists in X. destruct X as (r & Ir & X). apply String.eqb_eq in X. exists t, r. split; [exact It|]. split; [exact Ir|]. apply named. exact X.
      - right. intros t r It Ir H. apply named in H. assert (Y : existsb (fun t => existsb (fun r => String.eqb f (base_name t ++ "_" ++ base_name r ++ ".json")) refs) tables = true); [|congruence].
        apply existsb_exists. exists t. split; [exact It|]. apply existsb_exists. exists r. split; [exact Ir|]. apply String.eqb_eq. exact H. }
    destruct D as [(t & r & It & Ir & H)|N]; [|rewrite (B f N), (B' f N); reflexivity].
    destruct (A t r f It Ir H) as (c & -> & a & b & v & x & v' & y & w & s & F1 & F2 & F3 & F4 & F5 & ->).
    destruct (A' t r f It Ir H) as (c & -> & a2 & b2 & v2 & x2 & v2' & y2 & w2 & s2 & G1 & G2 & G3 & G4 & G5 & ->).
    apply base_file in F1, F2, G1, G2. rewrite F3 in G3. rewrite F4 in G4. injection G3 as -> ->. injection G4 as -> ->. rewrite F5 in G5. injection G5 as -> ->. congruence.
  Qed.
  (** A file that cannot be read at all: nothing is written. *)
  Theorem tool_unread : forall order tables refs dir p e, (forall l, Permutation (order l) l) -> In p (refs ++ tables) -> read p = Raise e ->
    exists e', tool order tables refs dir = (dir, Raise e').
  Proof.
    intros order tables refs dir p e O I H. unfold review_tool. assert (N : forall o, parse_file read p <> Ok o) by (intros o; unfold parse_file; rewrite H; discriminate).
    destruct (parse_set order read refs) as [[rl rsk]|e1] eqn:R; cbn [bind]; [|eauto].
    destruct (parse_set order read tables) as [[tl tsk]|e1] eqn:T; cbn [bind]; [|eauto].
    destruct (set_spec _ O _ _ _ _ R) as (_ & _ & R3). destruct (set_spec _ O _ _ _ _ T) as (_ & _ & T3). exfalso.
    apply in_app_or in I. destruct I as [I|I]; [destruct (R3 p I) as (o & Ho)|destruct (T3 p I) as (o & Ho)]; exact (N o Ho).
  Qed.
  (** A file the schema refuses: announced as skipped, yet the tool fails. *)
  Theorem tool_refused : forall order tables refs dir p, (forall l, Permutation (order l) l) -> tables <> [] -> refs <> [] -> In p (refs ++ tables) -> read p = Ok None ->
    exists dir' e, tool order tables refs dir = (dir', Raise e).
  Proof.
    intros order tables refs dir p O Nt Nr I H. destruct (tool order tables refs dir) as [dir' x] eqn:E. exists dir'.
    destruct (tool_walk _ _ _ O _ _ _ _ _ _ E) as [(_ & (e & ->) & _)|(l & y & sk & W & -> & L & _)]; [eauto|]. destruct y as [[]|e]; [exfalso|cbn; eauto].
    assert (All : forall q, In q l -> exists c, review_of worlds today q = Ok c).
    { clear - W. revert dir W. induction l as [|p l IH]; intros dir W q I; [destruct I|]. cbn [each_pair] in W. unfold write_review in W. fold (review_of worlds today p) in W.
      destruct (review_of worlds today p) as [c|e] eqn:R; [|discriminate W]. destruct I as [<-|I]; [eauto|]. exact (IH _ W q I). }
    assert (Good : forall pt, In pt (refs ++ tables) -> exists o, parse_file read pt = Ok o).
    { intros pt Jt. unfold review_tool in E. destruct (parse_set order read refs) as [[rl rsk]|e] eqn:R; cbn [bind] in E; [|discriminate E].
      destruct (parse_set order read tables) as [[tl tsk]|e] eqn:T; cbn [bind] in E; [|discriminate E].
      destruct (set_spec _ O _ _ _ _ R) as (_ & _ & R3). destruct (set_spec _ O _ _ _ _ T) as (_ & _ & T3). apply in_app_or in Jt. destruct Jt as [J|J]; [exact (R3 pt J)|exact (T3 pt J)]. }
    assert (P : parse_file read p = Ok None) by (unfold parse_file; rewrite H; reflexivity).
    destruct tables as [|t tables]; [destruct (Nt eq_refl)|]. destruct refs as [|r refs]; [destruct (Nr eq_refl)|].
    apply in_app_or in I. destruct I as [I|I].
    - destruct (Good t) as (o & Ho); [apply in_or_app; right; left; reflexivity|]. assert (J : In (o, None) l) by (apply L; exists t, p; split; [left; reflexivity|]; auto).
      destruct (All _ J) as (c & Hc). destruct o; discriminate Hc.
    - destruct (Good r) as (o & Ho); [left; reflexivity|]. assert (J : In (None, o) l) by (apply L; exists p, r; split; [exact I|]; split; [left; reflexivity|]; auto).
      destruct (All _ J) as (c & Hc). discriminate Hc.
  Qed.
End Final.

(** ** Names *)
Lemma split_first : forall a a' b b' : string, (forall x y, a <> x ++ "_" ++ y)%string -> (forall x y, a' <> x ++ "_" ++ y)%string ->
  (a ++ "_" ++ b = a' ++ "_" ++ b')%string -> a = a' /\ b = b'.
Proof.
  induction a as [|c a IH]; intros a' b b' N N' E.
  - destruct a' as [|c' a']; [cbn in E; injection E as E; auto|]. exfalso. cbn in E. injection E as E1 E2. exact (N' "" a' ltac:(rewrite <- E1; reflexivity)).
  - destruct a' as [|c' a']; [exfalso; cbn in E; injection E as E1 E2; exact (N "" a ltac:(rewrite E1; reflexivity))|].
    cbn in E. injection E as -> E. destruct (IH a' b b') as [-> ->]; [| |exact E|auto].
    + intros x y ->. exact (N (String c' x) y eq_refl).
    + intros x y ->. exact (N' (String c' x) y eq_refl).
Qed.
Lemma rev_split : forall (x : ascii) (l l' m m' : list ascii), ~ In x m -> ~ In x m' -> l ++ x :: m = l' ++ x :: m' -> l = l' /\ m = m'.
Proof.
  intros x. induction l as [|c l IH]; intros l' m m' N N' E.
  - destruct l' as [|c' l']; cbn in E; [injection E as E; auto|]. injection E as -> E. exfalso. apply N. rewrite E. apply in_or_app. right. left. reflexivity.
  - destruct l' as [|c' l']; cbn in E.
    + injection E as <- E. exfalso. apply N'. rewrite <- E. apply in_or_app. right. left. reflexivity.
    + injection E as -> E. destruct (IH l' m m' N N' E) as [-> ->]. auto.
Qed.
Lemma no_mark : forall b : string, (forall x y, b <> x ++ "_" ++ y)%string -> ~ In "_"%char (list_ascii_of_string b).
Proof.
  induction b as [|c b IH]; intros N I; [destruct I|]. destruct I as [->|I]; [exact (N "" b eq_refl)|]. apply IH; [|exact I]. intros x y ->. exact (N (String c x) y eq_refl).
Qed.
Lemma split_last : forall a a' b b' : string, (forall x y, b <> x ++ "_" ++ y)%string -> (forall x y, b' <> x ++ "_" ++ y)%string ->
  (a ++ "_" ++ b = a' ++ "_" ++ b')%string -> a = a' /\ b = b'.
Proof.
  intros a a' b b' N N' E. apply (f_equal list_ascii_of_string) in E. rewrite !chars_app in E. cbn [list_ascii_of_string app] in E.
  destruct (rev_split _ _ _ _ _ (no_mark _ N) (no_mark _ N') E) as [A B]. split; apply chars_inj; assumption.
Qed.
Lemma app_assoc_s : forall a b c : string, ((a ++ b) ++ c = a ++ (b ++ c))%string.
Proof. induction a as [|x a IH]; intros b c; [reflexivity|]. cbn. rewrite IH. reflexivity. Qed.
Theorem names_apart : forall tables refs, different_names tables -> different_names refs -> no_underscore tables \/ no_underscore refs -> separate tables refs.
Proof.
  intros tables refs Dt Dr U t r t' r' f It It' Ir Ir' H H'. apply named in H. apply named in H'. rewrite H in H'.
  assert (E : (base_name t ++ "_" ++ base_name r = base_name t' ++ "_" ++ base_name r')%string) by (apply (tail_inj _ _ ".json"); rewrite !app_assoc_s; exact H').
  assert (K : base_name t = base_name t' /\ base_name r = base_name r').
  { destruct U as [U|U].
    - apply split_first; [intros x y; exact (U t _ x y It (base_of t))|intros x y; exact (U t' _ x y It' (base_of t'))|exact E].
    - apply split_last; [intros x y; exact (U r _ x y Ir (base_of r))|intros x y; exact (U r' _ x y Ir' (base_of r'))|exact E]. }
  destruct K as [K1 K2]. split; [apply (Dt t t' (base_name t) It It' (base_of t)); rewrite K1; apply base_of|apply (Dr r r' (base_name r) Ir Ir' (base_of r)); rewrite K2; apply base_of].
Qed.

(** ** The review without a reference *)
Theorem core_completes : forall worlds today idna t, it_db (rt_table t) <> None -> lgr_reachable (it_lgr (rt_table t)) -> without_sequences (rt_table t) ->
  (forall l, exists b, wo_test (worlds (rt_table t)) l = Ok b) -> exists c, core_review worlds today idna t = Ok c.
Proof.
  intros worlds today idna t D R N T. unfold core_review. cbv zeta. destruct (it_db (rt_table t)) as [u|] eqn:Ed; [|destruct (D eq_refl)].
  assert (Hn : need (is_some (Some u)) (all_repertoire (it_rep (rt_table t)) true true) = Ok tt) by (unfold need; destruct (nonempty _); reflexivity). rewrite Hn. cbn [bind].
  rewrite table_uses. destruct (general_total (wo_digit (worlds (rt_table t))) (wo_mark (worlds (rt_table t))) (wo_rtl (worlds (rt_table t))) (wo_script_rtl (worlds (rt_table t))) (wo_test (worlds (rt_table t)))
    (it_rep (rt_table t)) (get_scripts (wo_tags (worlds (rt_table t))) (it_languages (rt_table t)) true) (match table_tags (wo_tags (worlds (rt_table t))) (it_languages (rt_table t)), None with [], Some l => table_tags (wo_tags (worlds (rt_table t))) l | own, _ => own end)
    (lgr_reachable_rep _ R) N T) as (g & Eg). rewrite Eg. cbn [bind]. eauto.
Qed.
Theorem core_says : forall worlds today idna t c report valid invalid, lgr_reachable (it_lgr (rt_table t)) -> (forall x, ~ In 32%N (idna x)) ->
  core_review worlds today idna t = Ok c -> co_repertoire c = (report, valid, invalid) ->
  co_header c = mkHeader today (rt_name t, rt_version t) None /\
  (NoDup (map fst report) /\ (forall a, In a (map fst report) <-> exists ch, lookup (it_rep (rt_table t)) a = Some ch) /\
   (valid + invalid = length report)%nat /\ exists l, NoDup l /\ length l = valid /\ forall a, In a l <-> all_valid_entry (it_rep (rt_table t)) idna a) /\
  (co_digits c = true <-> over_ten (it_rep (rt_table t)) (wo_digit (worlds (rt_table t)))).
Proof.
  intros worlds today idna t c report valid invalid R Sp E Er. unfold core_review in E. cbv zeta in E. destruct (need _ _) as [u|e]; [|discriminate E]. cbn [bind] in E.
  destruct (table_general _ _ _ _ _ _ _ _ _) as [g|e]; [|discriminate E]. cbn [bind] in E. injection E as <-. cbn [co_header co_repertoire co_digits] in *.
  split; [reflexivity|]. split; [|apply variant_core, lgr_reachable_rep, R].
  destruct (core_report idna _ _ _ _ (lgr_reachable_rep _ R) Sp Er) as (A & B & _ & C & D). auto.
Qed.
