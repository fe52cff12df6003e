(** Proofs about the summary of a review. *)
From Coq Require Import Permutation Lia.
From Verif Require Import Base BaseFacts CharModel ActionModel LgrModel CompareModel ReviewModel ReviewSpec.
Open Scope string_scope.
Open Scope list_scope.

Lemma result_of_name : forall r, result_of (result_name r) = Ok r.
Proof. destruct r; reflexivity. Qed.
Lemma name_nonempty : forall r, String.eqb (result_name r) "" = false.
Proof. destruct r; reflexivity. Qed.
Lemma name_inj : forall a b, result_name a = result_name b -> a = b.
Proof. destruct a, b; cbn; congruence. Qed.
Lemma severity_is : forall r, severity r = level r.
Proof. intros []; reflexivity. Qed.
Lemma level_inj : forall a b, level a = level b -> a = b.
Proof. destruct a, b; cbn; congruence. Qed.

Definition worse (o r : review) : review := if Nat.ltb (level o) (level r) then r else o.
Lemma worse_level : forall o r, level (worse o r) = Nat.max (level o) (level r).
Proof. intros. unfold worse. destruct (Nat.ltb_spec (level o) (level r)); lia. Qed.

(** The rows after the pairs. *)
Definition rows_from (d : dict string (string * nat)) (l : list (review * string)) : dict string (string * nat) :=
  fold_left (fun d p => add_remark d (result_name (fst p)) (snd p)) l d.
Lemma handle_named : forall l o d,
  handle (result_name o) d (named l) = Ok (result_name (fold_left worse (map fst l) o), rows_from d l).
Proof.
  induction l as [|[r m] l IH]; intros o d; [reflexivity|].
  cbn [named map fst snd handle]. rewrite name_nonempty, !result_of_name. cbn [bind].
  replace (if Nat.ltb (level o) (level r) then result_name r else result_name o) with (result_name (worse o r))
    by (unfold worse; destruct (Nat.ltb _ _); reflexivity).
  change (map (fun p => (result_name (fst p), snd p)) l) with (named l). rewrite IH. reflexivity.
Qed.
Lemma fold_worse : forall l o, let w := fold_left worse l o in
  (level o <= level w)%nat /\ (forall r, In r l -> (level r <= level w)%nat) /\ (w = o \/ In w l).
Proof.
  induction l as [|r l IH]; intros o; cbn [fold_left]; [repeat split; [lia | intros ? [] | left; reflexivity]|].
  specialize (IH (worse o r)). cbn zeta in IH |- *. destruct IH as (A & B & C). rewrite worse_level in A.
  split; [lia|]. split.
  - intros q [<- | Hq]; [lia | exact (B _ Hq)].
  - destruct C as [C | C]; [|right; right; exact C].
    rewrite C. unfold worse. destruct (Nat.ltb _ _); [right; left; reflexivity | left; reflexivity].
Qed.
Lemma summary_overall : forall l, exists o rows, handle_report (named l) = Ok (result_name o, rows) /\ worst l o.
Proof.
  intros l. exists (fold_left worse (map fst l) RMatch), (rows_from [] l). split; [apply handle_named|].
  destruct (fold_worse (map fst l) RMatch) as (_ & B & C). split.
  - intros p Hp. rewrite !severity_is. apply B, in_map, Hp.
  - destruct C as [C | C]; [left; exact C | right]. apply in_map_iff in C. destruct C as (p & E & Hp). exists p. split; [exact Hp | exact E].
Qed.
Lemma worst_unique : forall l a b, worst l a -> worst l b -> a = b.
Proof.
  intros l a b [A1 A2] [B1 B2]. apply level_inj.
  assert (H : (level a <= level b)%nat) by (destruct A2 as [-> | (p & Hp & <-)]; [cbn; lia | specialize (B1 _ Hp); rewrite !severity_is in B1; exact B1]).
  assert (H' : (level b <= level a)%nat) by (destruct B2 as [-> | (p & Hp & <-)]; [cbn; lia | specialize (A1 _ Hp); rewrite !severity_is in A1; exact A1]).
  lia.
Qed.

(** ** Rows *)
Definition row_ok (l : list (review * string)) (d : dict string (string * nat)) : Prop :=
  NoDup (dkeys d) /\
  (forall m, In m (dkeys d) <-> exists r, In (r, m) l) /\
  (forall m s n, dget String.eqb m d = Some (s, n) -> n = times m l /\ exists r, s = result_name r /\ last_with m l r).
Lemma times_app : forall m a b, times m (a ++ b) = (times m a + times m b)%nat.
Proof. intros. unfold times. rewrite filter_app, app_length. reflexivity. Qed.
Lemma times_none : forall m l, (forall r, ~ In (r, m) l) -> times m l = 0%nat.
Proof.
  intros m l H. unfold times. induction l as [|[r x] l IH]; [reflexivity|]. cbn [filter snd].
  destruct (String.eqb_spec x m) as [E|E].
  - exfalso. apply (H r). left. rewrite E. reflexivity.
  - apply IH. intros q Hq. apply (H q). right. exact Hq.
Qed.
Definition old_count (m : string) (d : dict string (string * nat)) : nat := match dget String.eqb m d with Some (_, n) => n | None => 0%nat end.
Lemma add_remark_dset : forall d s m, add_remark d s m = dset String.eqb m (s, S (old_count m d)) d.
Proof. intros. unfold add_remark, old_count. destruct (dget String.eqb m d) as [[? ?]|]; reflexivity. Qed.
Lemma row_step : forall l d r m, row_ok l d -> row_ok (l ++ [(r, m)]) (add_remark d (result_name r) m).
Proof.
  intros l d r m (A & B & C). rewrite add_remark_dset.
  split; [apply (dset_NoDup _ string_eqb_iff), A|]. split.
  - intros x. rewrite (dset_keys_iff _ string_eqb_iff). split.
    + intros [-> | Hx].
      * exists r. apply in_or_app. right. left. reflexivity.
      * apply B in Hx. destruct Hx as (q & Hq). exists q. apply in_or_app. left. exact Hq.
    + intros (q & Hq). apply in_app_or in Hq. destruct Hq as [Hq | [Hq | []]].
      * right. apply B. exists q. exact Hq.
      * left. congruence.
  - intros x s k Hg. rewrite (dget_dset _ string_eqb_iff) in Hg. rewrite times_app.
    destruct (String.eqb_spec x m) as [E|E].
    + injection Hg as Es Ek. split.
      * subst x k. unfold times at 2. cbn [filter snd]. rewrite String.eqb_refl. cbn [List.length].
        unfold old_count. destruct (dget String.eqb m d) as [[s' n]|] eqn:Ed.
        -- rewrite (proj1 (C _ _ _ Ed)). lia.
        -- rewrite times_none; [lia|]. intros q Hq. apply (dget_None _ string_eqb_iff) in Ed. apply Ed, B. exists q. exact Hq.
      * exists r. split; [congruence|]. exists l, []. split; [rewrite E; reflexivity | intros ? []].
    + destruct (C _ _ _ Hg) as (En & q & Es & l1 & l2 & El & Hl). split.
      * rewrite En. unfold times at 3. cbn [filter snd]. destruct (String.eqb_spec m x); [congruence|]. cbn. lia.
      * exists q. split; [exact Es|]. exists l1, (l2 ++ [(r, m)]). split; [rewrite El, <- app_assoc; reflexivity|].
        intros p Hp. apply in_app_or in Hp. destruct Hp as [Hp | [<- | []]]; [exact (Hl _ Hp) | cbn; congruence].
Qed.
Lemma rows_ok_from : forall l l0 d, row_ok l0 d -> row_ok (l0 ++ l) (rows_from d l).
Proof.
  induction l as [|[r m] l IH]; intros l0 d H; [rewrite app_nil_r; exact H|].
  replace (l0 ++ (r, m) :: l) with ((l0 ++ [(r, m)]) ++ l) by (rewrite <- app_assoc; reflexivity).
  apply IH, row_step, H.
Qed.
Lemma rows_ok : forall l, row_ok l (rows_from [] l).
Proof.
  intros l. apply (rows_ok_from l [] []). split; [constructor|]. split.
  - intros m. split; [intros [] | intros (r & [])].
  - intros m s n H. discriminate H.
Qed.
Lemma summary_rows : forall l o rows, handle_report (named l) = Ok (o, rows) -> row_ok l rows.
Proof.
  intros l o rows H. unfold handle_report in H. rewrite handle_named in H. injection H as _ <-. apply rows_ok.
Qed.

Lemma summary_exact : forall l o rows, handle_report (named l) = Ok (o, rows) ->
  NoDup (dkeys rows) /\ (forall m, In m (dkeys rows) <-> exists r, In (r, m) l) /\ (forall m s n, In (m, (s, n)) rows -> n = times m l /\ exists r, s = result_name r /\ last_with m l r).
Proof.
  intros l o rows H. destruct (summary_rows _ _ _ H) as (A & B & C). split; [exact A|]. split; [exact B|].
  intros m s n Hin. apply C. apply (In_dget _ string_eqb_iff); [exact A | exact Hin].
Qed.

(** The counts add up to the number of results. *)
Definition total (rows : dict string (string * nat)) : nat := fold_right plus 0%nat (map (fun x => snd (snd x)) rows).
Lemma total_dset : forall m s d, total (dset String.eqb m (s, S (old_count m d)) d) = S (total d).
Proof.
  intros m s d. induction d as [|[k [s' n]] d IH].
  - unfold old_count. cbn. reflexivity.
  - unfold old_count in *. cbn [dget dset]. destruct (String.eqb m k).
    + unfold total. cbn. reflexivity.
    + unfold total in *. cbn [map fold_right snd]. fold (@dset string (string * nat) String.eqb). rewrite IH. lia.
Qed.
Lemma total_rows : forall l d, total (rows_from d l) = (total d + List.length l)%nat.
Proof.
  induction l as [|[r m] l IH]; intros d; [unfold rows_from; cbn [fold_left List.length]; lia|].
  change (rows_from d ((r, m) :: l)) with (rows_from (add_remark d (result_name r) m) l). cbn [List.length]. rewrite IH, add_remark_dset, total_dset. lia.
Qed.
Lemma summary_total : forall l o rows, handle_report (named l) = Ok (o, rows) -> total rows = List.length l.
Proof.
  intros l o rows H. unfold handle_report in H. rewrite handle_named in H. injection H as _ <-. rewrite total_rows. reflexivity.
Qed.
Lemma summary_consistent : forall l o rows, consistent l -> handle_report (named l) = Ok (o, rows) ->
  (forall m s n r, In (m, (s, n)) rows -> In (r, m) l -> s = result_name r) /\ (l <> [] -> exists m n, In (m, (o, n)) rows).
Proof.
  intros l o rows Hc H. destruct (summary_rows _ _ _ H) as (A & B & C).
  assert (R : forall m s n r, In (m, (s, n)) rows -> In (r, m) l -> s = result_name r).
  { intros m s n r Hin Hr. apply (In_dget _ string_eqb_iff) in Hin; [|exact A].
    destruct (C _ _ _ Hin) as (_ & q & -> & l1 & l2 & El & _). f_equal. apply (Hc q r m); [|exact Hr].
    rewrite El. apply in_or_app. right. left. reflexivity. }
  split; [exact R|]. intros Hne. destruct (summary_overall l) as (w & rows' & E & Hw). rewrite H in E. injection E as -> ->.
  assert (exists p, In p l /\ fst p = w) as ([r m] & Hp & Er).
  { destruct Hw as [Hw [-> | Hex]]; [|exact Hex]. destruct l as [|p l]; [contradiction|]. exists p. split; [left; reflexivity|].
    specialize (Hw p (or_introl eq_refl)). rewrite !severity_is in Hw. apply level_inj. cbn in *. lia. }
  cbn in Er. subst r. assert (Hm : In m (dkeys rows')) by (apply B; exists w; exact Hp).
  unfold dkeys in Hm. apply in_map_iff in Hm. destruct Hm as ([m' [s n]] & E' & Hin). cbn in E'. subst m'.
  exists m, n. rewrite <- (R _ _ _ _ Hin Hp). exact Hin.
Qed.
Lemma times_perm : forall m l l', Permutation l l' -> times m l = times m l'.
Proof. intros m l l' H. induction H; unfold times in *; cbn [filter snd]; try destruct (String.eqb _ _); try destruct (String.eqb _ _); cbn [List.length]; lia. Qed.
Lemma summary_any_order : forall l l' o rows o' rows', Permutation l l' ->
  handle_report (named l) = Ok (o, rows) -> handle_report (named l') = Ok (o', rows') ->
  o = o' /\ forall m, option_map snd (dget String.eqb m rows) = option_map snd (dget String.eqb m rows').
Proof.
  intros l l' o rows o' rows' P H H'. split.
  - destruct (summary_overall l) as (w & r1 & E & Hw). destruct (summary_overall l') as (w' & r2 & E' & Hw').
    rewrite H in E. rewrite H' in E'. injection E as -> _. injection E' as -> _. f_equal. apply (worst_unique l'); [|exact Hw'].
    destruct Hw as [A B]. split.
    + intros p Hp. apply A. apply (Permutation_in _ (Permutation_sym P) Hp).
    + destruct B as [B | (p & Hp & E)]; [left; exact B | right; exists p; split; [apply (Permutation_in _ P Hp) | exact E]].
  - intros m. destruct (summary_rows _ _ _ H) as (_ & B & C). destruct (summary_rows _ _ _ H') as (_ & B' & C').
    destruct (dget String.eqb m rows) as [[s n]|] eqn:E; destruct (dget String.eqb m rows') as [[s' n']|] eqn:E'; cbn.
    + rewrite (proj1 (C _ _ _ E)), (proj1 (C' _ _ _ E')), (times_perm _ _ _ P). reflexivity.
    + exfalso. apply (dget_None _ string_eqb_iff) in E'. apply E', B'. apply (dget_In _ string_eqb_iff) in E.
      assert (K : In m (dkeys rows)) by (apply in_map_iff; exists (m, (s, n)); split; [reflexivity | exact E]).
      apply B in K. destruct K as (r & K). exists r. apply (Permutation_in _ P K).
    + exfalso. apply (dget_None _ string_eqb_iff) in E. apply E, B. apply (dget_In _ string_eqb_iff) in E'.
      assert (K : In m (dkeys rows')) by (apply in_map_iff; exists (m, (s', n')); split; [reflexivity | exact E']).
      apply B' in K. destruct K as (r & K). exists r. apply (Permutation_in _ (Permutation_sym P) K).
    + reflexivity.
Qed.
Lemma summary_mixed_remark : exists l o rows, handle_report (named l) = Ok (o, rows) /\ forall m n, ~ In (m, (o, n)) rows.
Proof.
  exists [(RReview, "remark"); (RMatch, "remark")], "REVIEW", [("remark", ("MATCH", 2%nat))]. split; [vm_compute; reflexivity|].
  intros m n [E | []]. discriminate E.
Qed.
Lemma summary_unknown : forall l1 l2 s m, (forall r, result_of s <> Ok r) -> exists e, handle_report (named l1 ++ (s, m) :: l2) = Raise e.
Proof.
  intros l1 l2 s m Hs. unfold handle_report. generalize RMatch, (@nil (string * (string * nat))).
  induction l1 as [|[r x] l1 IH]; intros o d.
  - cbn [named map app handle]. rewrite name_nonempty. destruct (result_of s) as [r|e]; [destruct (Hs r eq_refl)|]. exists e. reflexivity.
  - cbn [named map app handle fst snd]. rewrite name_nonempty, !result_of_name. cbn [bind].
    replace (if Nat.ltb (level o) (level r) then result_name r else result_name o) with (result_name (worse o r))
      by (unfold worse; destruct (Nat.ltb _ _); reflexivity).
    apply IH.
Qed.
