From Coq Require Import Permutation Sorted.
From Verif Require Import Base BaseFacts AnnotateModel CollisionModel CollisionSpec CollisionProofs CollisionFinal CollideModel CollideSpec CollideProofs.
Open Scope string_scope.
Open Scope list_scope.
Open Scope nat_scope.

(** ** Lists *)
Lemma split_left : forall {A} (a b pre post : list A) x, a ++ b = pre ++ x :: post -> ~ In x a -> exists pre', pre = a ++ pre' /\ b = pre' ++ x :: post.
Proof.
  induction a as [|y a IH]; intros b pre post x H N; [exists pre; auto|]. destruct pre as [|z pre].
  - injection H as -> _. exfalso. apply N. left. reflexivity.
  - injection H as -> H. destruct (IH _ _ _ _ H) as [pre' [-> ->]]; [intro K; apply N; right; exact K|]. exists pre'. auto.
Qed.
Lemma split_right : forall {A} (a b pre post : list A) x, a ++ b = pre ++ x :: post -> ~ In x b -> exists post', a = pre ++ x :: post' /\ post = post' ++ b.
Proof.
  intros A a. induction a as [|y a IH]; intros b pre post x H N; [cbn [app] in H; exfalso; apply N; rewrite H; apply in_elt|]. destruct pre as [|z pre].
  - injection H as -> <-. exists a. auto.
  - injection H as -> H. destruct (IH _ _ _ _ H N) as [post' [-> ->]]. exists post'. auto.
Qed.
Lemma split_flat : forall {A B} (f : A -> list B) l pre post x, flat_map f l = pre ++ x :: post ->
  exists l1 y l2 p q, l = l1 ++ y :: l2 /\ f y = p ++ x :: q /\ pre = flat_map f l1 ++ p.
Proof.
  intros A B f. induction l as [|y l IH]; intros pre post x H; [destruct pre; discriminate|]. cbn [flat_map] in H.
  assert (K : (exists q, f y = pre ++ x :: q) \/ exists p, pre = f y ++ p /\ flat_map f l = p ++ x :: post).
  { revert pre H. generalize (f y). induction l0 as [|z l0 IH0]; intros pre H; [right; exists pre; auto|]. destruct pre as [|w pre].
    - injection H as -> H. left. exists l0. reflexivity.
    - injection H as -> H. destruct (IH0 _ H) as [[q ->]|[p [-> K]]]; [left; exists q; reflexivity|right; exists p; auto]. }
  destruct K as [[q K]|[p [-> K]]].
  - exists [], y, l, pre, q. auto.
  - destruct (IH _ _ _ K) as [l1 [z [l2 [p' [q [-> [H2 ->]]]]]]]. exists (y :: l1), z, l2, p', q. cbn [flat_map app]. rewrite app_assoc. auto.
Qed.
Lemma last_index_app : forall a b, last_index (a ++ b) = match last_index b with Some i => Some i | None => last_index a end.
Proof. induction a as [|x a IH]; intro b; cbn [last_index app]; [destruct (last_index b); reflexivity|]. rewrite IH. destruct (last_index b); reflexivity. Qed.
Lemma last_dump_app : forall a b, last_dump (a ++ b) = match last_dump b with Some i => Some i | None => last_dump a end.
Proof. induction a as [|x a IH]; intro b; cbn [last_dump app]; [destruct (last_dump b); reflexivity|]. rewrite IH. destruct (last_dump b); reflexivity. Qed.
Lemma each_inv : forall {A} (f : A -> list line * res unit) l out, each f l = (out, Ok tt) -> out = flat_map (fun x => fst (f x)) l /\ forall x, In x l -> snd (f x) = Ok tt.
Proof.
  intros A f. induction l as [|x l IH]; intros out H; cbn [each] in H; [injection H as <-; split; [reflexivity|intros x []]|].
  unfold continue in H. destruct (f x) as [a [[]|e]] eqn:E; [|discriminate]. destruct (each f l) as [b y]. cbn [fst snd] in H. injection H as <- ->. destruct (IH _ eq_refl) as [-> K].
  cbn [flat_map]. rewrite E. split; [reflexivity|]. intros z [<-|Hz]; [rewrite E; reflexivity|exact (K z Hz)].
Qed.
Lemma each_ok : forall {A} (f : A -> list line * res unit) l, (forall x, In x l -> snd (f x) = Ok tt) -> snd (each f l) = Ok tt.
Proof.
  intros A f. induction l as [|x l IH]; intro H; [reflexivity|]. cbn [each]. unfold continue. pose proof (H x (or_introl eq_refl)) as K. destruct (f x) as [a y]. cbn [snd] in K. subst y. cbn [snd].
  apply IH. intros z Hz. apply H. right. exact Hz.
Qed.
Lemma continue_ok : forall a b, snd (continue a b) = Ok tt <-> snd a = Ok tt /\ snd b = Ok tt.
Proof. intros [a [[]|e]] b; cbn [continue snd]; [tauto|]. split; [discriminate|intros [K _]; discriminate]. Qed.
Lemma continue_fst : forall a b, snd a = Ok tt -> fst (continue a b) = fst a ++ fst b.
Proof. intros [a y] b H. cbn [snd] in H. subst y. reflexivity. Qed.

(** ** The lines of the indexes *)
Lemma among_In : forall l es x, In x (among l es) <-> In x (map ce_cp es) /\ In x l.
Proof. intros l es x. unfold among. rewrite filter_In, (memb_In _ _ cps_eqb_eq). tauto. Qed.
Definition pairish (x : line) : Prop := match x with Pair _ _ _ _ _ => True | _ => False end.
Lemma index_lines_pairs : forall labels tlds q, exists ps, index_lines labels tlds q = IndexHeader (fst q) :: map (show_pair (snd q)) ps /\
  (NoDup (map ce_cp (snd q)) -> forall a b, In (a, b) ps -> In a labels /\ In a (map ce_cp (snd q)) /\ In b (map ce_cp (snd q)) /\ (In b labels \/ In b tlds) /\ a <> b) /\
  (NoDup (map ce_cp (snd q)) -> forall a b, a <> b -> In a (among labels (snd q)) -> In b (among labels (snd q)) -> In (a, b) ps \/ In (b, a) ps) /\
  (forall a b, a <> b -> In a (among labels (snd q)) -> In b (among tlds (snd q)) -> In (a, b) ps).
Proof.
  intros labels tlds [i es]. cbn [fst snd]. unfold index_lines. cbn [fst snd]. set (ls := among labels es). set (ts := among tlds es).
  exists ((if Nat.ltb 1 (length ls) then dump_collisions ls None else []) ++ (match ts with [] => [] | _ => dump_collisions ls (Some ts) end)).
  split; [rewrite map_app; f_equal; f_equal; [destruct (Nat.ltb 1 (length ls)); reflexivity|destruct ts; reflexivity]|]. split; [|split].
  - intros Hn a b H. assert (Nl : NoDup ls) by (apply NoDup_filter; exact Hn). apply in_app_iff in H.
    assert (K : In a ls /\ (In b ls \/ In b ts) /\ a <> b).
    { destruct H as [H|H].
      - destruct (Nat.ltb 1 (length ls)); [|contradiction]. destruct (proj1 (dump_pairs ls a b Nl) (or_introl H)) as [H1 [H2 H3]]. auto.
      - destruct ts as [|y ts']; [contradiction|]. apply dump_against in H. tauto. }
    unfold ls, ts in K. rewrite !among_In in K. tauto.
  - intros Hn a b Hne Ha Hb. assert (Nl : NoDup ls) by (apply NoDup_filter; exact Hn). assert (L : Nat.ltb 1 (length ls) = true).
    { apply Nat.ltb_lt. fold ls in Ha, Hb. destruct ls as [|x [|y l]]; cbn [length]; [contradiction| |lia]. destruct Ha as [<-|[]], Hb as [<-|[]]. congruence. }
    rewrite L, !in_app_iff. destruct (proj2 (dump_pairs ls a b Nl) (conj Ha (conj Hb Hne))) as [K|K]; auto.
  - intros a b Hne Ha Hb. apply in_app_iff. right. fold ts in Hb. destruct ts as [|y ts'] eqn:E; [contradiction|]. apply dump_against. auto.
Qed.
Section Lines.
  Variables labels tlds : list cps.
  Variable t : ctable.
  Notation body := (flat_map (index_lines labels tlds) t).
  Lemma body_only : forall x, In x body -> (exists i, x = IndexHeader i) \/ pairish x.
  Proof.
    intros x H. apply in_flat_map in H. destruct H as [q [_ H]]. destruct (index_lines_pairs labels tlds q) as [ps [E _]]. rewrite E in H.
    destruct H as [<-|H]; [left; eauto|]. apply in_map_iff in H. destruct H as [p [<- _]]. right. exact I.
  Qed.
  Lemma body_headers : headers body = dkeys t.
  Proof.
    unfold headers. induction t as [|q t' IH]; [reflexivity|]. cbn [flat_map dkeys map]. rewrite flat_map_app, IH. destruct (index_lines_pairs labels tlds q) as [ps [E _]]. rewrite E. cbn [flat_map].
    assert (Z : flat_map (fun x => match x with IndexHeader i => [i] | _ => [] end) (map (show_pair (snd q)) ps) = []) by (clear E; induction ps as [|p ps IHp]; [reflexivity|exact IHp]).
    rewrite Z. reflexivity.
  Qed.
  Lemma body_pair : forall pre post f a ca b cb, body = pre ++ Pair f a ca b cb :: post ->
    exists i es ps, In (i, es) t /\ last_index pre = Some i /\ index_lines labels tlds (i, es) = IndexHeader i :: map (show_pair es) ps /\ In (a, b) ps /\
      ca = category_in es a /\ cb = category_in es b /\ f = (is_tld ca || is_tld cb)%bool /\
      (NoDup (map ce_cp es) -> In a labels /\ In a (map ce_cp es) /\ In b (map ce_cp es) /\ (In b labels \/ In b tlds) /\ a <> b).
  Proof.
    intros pre post f a ca b cb H. apply split_flat in H. destruct H as [l1 [[i es] [l2 [p [q [El [E ->]]]]]]].
    destruct (index_lines_pairs labels tlds (i, es)) as [ps [Ei [P1 _]]]. cbn [fst snd] in Ei, P1. rewrite Ei in E. destruct p as [|y p]; [discriminate|]. injection E as <- E.
    exists i, es, ps. split; [rewrite El; apply in_elt|]. split.
    - rewrite last_index_app. cbn [last_index]. assert (Z : last_index p = None); [|rewrite Z; reflexivity].
      clear - E. revert p E. induction ps as [|x ps IH]; intros p E; [destruct p; discriminate|]. destruct p as [|y p]; [reflexivity|]. injection E as <- E. cbn [last_index]. rewrite (IH _ E). reflexivity.
    - split; [exact Ei|]. assert (K : In (Pair f a ca b cb) (map (show_pair es) ps)) by (rewrite E; apply in_elt). apply in_map_iff in K. destruct K as [[a' b'] [K1 K2]].
      unfold show_pair in K1. cbn [fst snd] in K1. injection K1 as <- <- <- <- <-. split; [exact K2|]. split; [reflexivity|]. split; [reflexivity|]. split; [reflexivity|]. intro Hn. exact (P1 Hn _ _ K2).
  Qed.
  Lemma none_iff : In NoneHere (complete_output labels tlds t) <-> ~ exists i es, In (i, es) t /\ 1 < length (among labels es).
  Proof.
    unfold complete_output. rewrite in_app_iff. split.
    - intros [H|H] [i [es [K1 K2]]]; [destruct (body_only _ H) as [[j E]|E]; [discriminate|contradiction]|].
      destruct (existsb _ t) eqn:E; [contradiction|]. assert (X : existsb (fun q => Nat.ltb 1 (length (among labels (snd q)))) t = true).
      { apply existsb_exists. exists (i, es). split; [exact K1|]. apply Nat.ltb_lt. exact K2. } congruence.
    - intro H. right. destruct (existsb _ t) eqn:E; [|left; reflexivity]. exfalso. apply existsb_exists in E. destruct E as [[i es] [K1 K2]]. apply H. exists i, es. split; [exact K1|]. apply Nat.ltb_lt. exact K2.
  Qed.
End Lines.

(** ** The dump *)
Lemma isort_in : forall {A} (leb : A -> A -> bool) l x, In x (isort leb l) <-> In x l.
Proof. intros A leb l x. split; apply Permutation_in; [apply Permutation_sym|]; apply isort_perm. Qed.
Section Dump.
  Variable lower : string -> string.
  Notation lab := (dump_label lower).
  Definition disp_for (p : cps) (e : centry) : option (option string) := dget cps_eqb p (ce_disp e).
  Definition lowered (p : cps) (e : centry) : string := match disp_for p e with Some (Some d) => lower d | _ => "" end.
  Lemma mapM_iff : forall {A B} (f : A -> res B) (g : A -> B) l, (forall x y, f x = Ok y -> y = g x) ->
    (mapM_res f l = Ok (map g l) /\ forall x, In x l -> exists y, f x = Ok y) \/ (exists e, mapM_res f l = Raise e) /\ exists x e, In x l /\ f x = Raise e.
  Proof.
    intros A B f g l Hg. induction l as [|x l IH]; [left; split; [reflexivity|intros x []]|]. cbn [mapM_res map]. destruct (f x) as [y|e] eqn:E; cbn [bind].
    - destruct IH as [[IH1 IH2]|[[e IH1] [z [e' [IH2 IH3]]]]].
      + left. rewrite IH1. cbn [bind]. rewrite (Hg _ _ E). split; [reflexivity|]. intros z [<-|Hz]; [eauto|exact (IH2 z Hz)].
      + right. rewrite IH1. split; [eexists; reflexivity|]. exists z, e'. split; [right; exact IH2|exact IH3].
    - right. split; [eexists; reflexivity|]. exists x, e. split; [left; reflexivity|exact E].
  Qed.
  Lemma label_ok : forall es p, snd (lab es p) = Ok tt <-> forall e, In e es -> exists d, disp_for p e = Some (Some d).
  Proof.
    intros es p. unfold dump_label. rewrite !continue_ok. unfold dump_counts.
    match goal with |- context [mapM_res ?f es] => set (F := f) end.
    destruct (mapM_iff F (lowered p) es) as [[H1 H2]|[[e H1] [x [e' [H2 H3]]]]].
    { intros x y. unfold F, lowered, disp_for. destruct (dget cps_eqb p (ce_disp x)) as [[d|]|]; intro K; [injection K as <-; reflexivity|discriminate|discriminate]. }
    - rewrite H1. split; [intros _ e He; destruct (H2 e He) as [y K]; unfold F, disp_for in *; destruct (dget cps_eqb p (ce_disp e)) as [[d|]|]; [eauto|discriminate|discriminate]|].
      intros _. split; [reflexivity|]. split; [|reflexivity]. apply each_ok. intros e He. destruct (cps_eqb (ce_cp e) p); [reflexivity|]. destruct (H2 e He) as [y K]. unfold F in K.
      destruct (dget cps_eqb p (ce_disp e)) as [[d|]|]; [reflexivity|discriminate|discriminate].
    - rewrite H1. split; [intros [_ [_ K]]; discriminate|]. intro K. exfalso. destruct (K x H2) as [d Kd]. unfold F, disp_for in *. rewrite Kd in H3. discriminate.
  Qed.
  Definition variant_lines (p : cps) (e : centry) : list line :=
    if cps_eqb (ce_cp e) p then [] else [DumpVariant (ce_cat e) (ce_cp e); DumpDisposition (match disp_for p e with Some d => d | None => None end)].
  Lemma label_shape : forall es p, snd (lab es p) = Ok tt ->
    fst (lab es p) = DumpHeader p :: flat_map (variant_lines p) es ++ CountHeader :: map (fun x => Count (fst x) (snd x)) (most_common (map (lowered p) es)).
  Proof.
    intros es p H. pose proof H as H0. rewrite label_ok in H0. unfold dump_label in *. rewrite !continue_ok in H. destruct H as [_ [H1 H2]]. rewrite continue_fst by reflexivity. rewrite continue_fst by exact H1. cbn [fst app].
    f_equal. f_equal.
    - unfold dump_variants in *. destruct (each _ es) as [out o] eqn:F. cbn [snd] in H1. subst o. apply each_inv in F. destruct F as [-> _]. cbn [fst]. clear H2. induction es as [|e es IH]; [reflexivity|].
      cbn [flat_map]. rewrite IH by (intros x Hx; apply H0; right; exact Hx). f_equal. unfold variant_lines. destruct (cps_eqb (ce_cp e) p); [reflexivity|]. destruct (H0 e (or_introl eq_refl)) as [d Hd]. rewrite Hd. unfold disp_for in Hd. rewrite Hd. reflexivity.
    - unfold dump_counts. match goal with |- context [mapM_res ?f es] => set (F := f) end.
      destruct (mapM_iff F (lowered p) es) as [[K1 _]|[_ [x [e' [K2 K3]]]]].
      { intros x y. unfold F, lowered, disp_for. destruct (dget cps_eqb p (ce_disp x)) as [[d|]|]; intro K; [injection K as <-; reflexivity|discriminate|discriminate]. }
      + rewrite K1. reflexivity.
      + exfalso. destruct (H0 x K2) as [d Kd]. unfold F, disp_for in *. rewrite Kd in K3. discriminate.
  Qed.
  Lemma variant_only : forall p es x, In x (flat_map (variant_lines p) es) -> (exists c l, x = DumpVariant c l) \/ (exists d, x = DumpDisposition d).
  Proof.
    intros p es x H. apply in_flat_map in H. destruct H as [e [_ H]]. unfold variant_lines in H. destruct (cps_eqb (ce_cp e) p); [contradiction|]. destruct H as [<-|[<-|[]]]; [left|right]; eauto.
  Qed.
  Lemma label_lines : forall es p, snd (lab es p) = Ok tt -> exists vs, fst (lab es p) = DumpHeader p :: vs ++ CountHeader :: map (fun x => Count (fst x) (snd x)) (most_common (map (lowered p) es)) /\
    (forall x, In x vs -> (exists c l, x = DumpVariant c l) \/ (exists d, x = DumpDisposition d)).
  Proof. intros es p H. exists (flat_map (variant_lines p) es). split; [exact (label_shape es p H)|exact (variant_only p es)]. Qed.
  Lemma variant_no_dump : forall p l, last_dump (flat_map (variant_lines p) l) = None.
  Proof.
    intros p l. induction l as [|e l IH]; [reflexivity|]. cbn [flat_map]. rewrite last_dump_app, IH. unfold variant_lines. destruct (cps_eqb (ce_cp e) p); reflexivity.
  Qed.
  Lemma count_In : forall ds d n, In (Count d n) (map (fun x => Count (fst x) (snd x)) (most_common ds)) <-> In d ds /\ n = occurrences d ds.
  Proof.
    intros ds d n. rewrite in_map_iff. unfold most_common. split.
    - intros [[d' n'] [E H]]. cbn [fst snd] in E. injection E as -> ->. apply isort_in in H. apply in_map_iff in H. destruct H as [x [E H]]. injection E as -> <-. split; [|reflexivity]. apply (dedup_In _ _ string_eqb_iff). exact H.
    - intros [H ->]. exists (d, occurrences d ds). split; [reflexivity|]. apply isort_in. apply in_map_iff. exists d. split; [reflexivity|]. apply (dedup_In _ _ string_eqb_iff). exact H.
  Qed.

  Definition primaries (es : list centry) : list centry := filter (fun e => match ce_cat e with CPrimary => true | _ => false end) es.
  Definition dumped (t : ctable) : list (list centry * cps) := flat_map (fun es => map (fun e => (es, ce_cp e)) (primaries es)) (dvals t).
  Lemma dumped_In : forall t es p, In (es, p) (dumped t) <-> (exists i, In (i, es) t) /\ exists e, In e es /\ ce_cat e = CPrimary /\ ce_cp e = p.
  Proof.
    intros t es p. unfold dumped. rewrite in_flat_map. split.
    - intros [es' [H1 H2]]. apply in_map_iff in H2. destruct H2 as [e [E H2]]. injection E as -> <-. unfold dvals in H1. apply in_map_iff in H1. destruct H1 as [[i es'] [E1 H1]]. cbn [snd] in E1. subst es'.
      split; [eauto|]. exists e. apply filter_In in H2. destruct H2 as [H2 H3]. destruct (ce_cat e); [auto|discriminate|discriminate].
    - intros [[i H1] [e [H2 [H3 <-]]]]. exists es. split; [unfold dvals; change es with (snd (i, es)); apply in_map; exact H1|]. apply in_map_iff. exists e. split; [reflexivity|]. apply filter_In. rewrite H3. auto.
  Qed.
  Lemma dump_ok : forall t, snd (dump_lines lower t) = Ok tt <-> forall q, In q (dumped t) -> snd (lab (fst q) (snd q)) = Ok tt.
  Proof.
    intro t. unfold dump_lines. split.
    - intros H [es p] Hq. destruct (each _ (dvals t)) as [out o] eqn:E. cbn [snd] in H. subst o. apply each_inv in E. destruct E as [_ E]. unfold dumped in Hq. apply in_flat_map in Hq. destruct Hq as [es' [H1 H2]].
      apply in_map_iff in H2. destruct H2 as [e [K H2]]. injection K as -> <-. specialize (E _ H1). cbn beta in E. fold (primaries es) in E. destruct (each _ (primaries es)) as [o2 y] eqn:E2. cbn [snd] in E. subst y. apply each_inv in E2. exact (proj2 E2 e H2).
    - intro H. apply each_ok. intros es Hes. apply each_ok. intros e He. apply (H (es, ce_cp e)). unfold dumped. apply in_flat_map. exists es. split; [exact Hes|]. apply in_map_iff. exists e. auto.
  Qed.
  Lemma dump_out : forall t out, dump_lines lower t = (out, Ok tt) -> out = flat_map (fun q => fst (lab (fst q) (snd q))) (dumped t).
  Proof.
    intros t out H. unfold dump_lines in H. apply each_inv in H. destruct H as [-> K]. unfold dumped. induction (dvals t) as [|es l IH]; [reflexivity|].
    cbn [flat_map]. rewrite flat_map_app, <- IH by (intros x Hx; apply K; right; exact Hx). f_equal.
    pose proof (K es (or_introl eq_refl)) as Ke. cbn beta in Ke. fold (primaries es) in Ke |- *. destruct (each (fun e => lab es (ce_cp e)) (primaries es)) as [o y] eqn:E. cbn [snd] in Ke. subst y. apply each_inv in E. destruct E as [-> _]. cbn [fst].
    induction (primaries es) as [|e l' IH']; [reflexivity|]. cbn [flat_map map fst snd]. rewrite IH'. reflexivity.
  Qed.
  Lemma dump_only : forall t out x, dump_lines lower t = (out, Ok tt) -> In x out ->
    match x with DumpHeader _ | DumpVariant _ _ | DumpDisposition _ | CountHeader | Count _ _ => True | _ => False end.
  Proof.
    intros t out x H Hx. pose proof (proj1 (dump_ok t) ltac:(rewrite H; reflexivity)) as K. rewrite (dump_out _ _ H) in Hx. apply in_flat_map in Hx. destruct Hx as [q [Hq Hx]].
    destruct (label_lines _ _ (K q Hq)) as [vs [E V]]. rewrite E in Hx. destruct Hx as [<-|Hx]; [exact I|]. apply in_app_iff in Hx. destruct Hx as [Hx|[<-|Hx]]; [|exact I|].
    - destruct (V x Hx) as [[c [l ->]]|[d ->]]; exact I.
    - apply in_map_iff in Hx. destruct Hx as [y [<- _]]. exact I.
  Qed.
  Lemma dump_count : forall t out pre post d n, dump_lines lower t = (out, Ok tt) -> out = pre ++ Count d n :: post ->
    exists es p, In (es, p) (dumped t) /\ last_dump pre = Some p /\ In d (map (lowered p) es) /\ n = occurrences d (map (lowered p) es).
  Proof.
    intros t out pre post d n H E. pose proof (proj1 (dump_ok t) ltac:(rewrite H; reflexivity)) as K. rewrite (dump_out _ _ H) in E. apply split_flat in E.
    destruct E as [l1 [[es p] [l2 [a [b [El [E ->]]]]]]]. assert (Hq : In (es, p) (dumped t)) by (rewrite El; apply in_elt). exists es, p. split; [exact Hq|]. cbn [fst snd] in E.
    destruct (label_lines _ _ (K _ Hq)) as [vs [F V]]. cbn [fst snd] in F. rewrite F in E. destruct a as [|y a]; [discriminate|]. injection E as <- E.
    apply split_left in E; [|intro Q; destruct (V _ Q) as [[c [l Q']]|[x Q']]; discriminate]. destruct E as [a' [-> E]]. destruct a' as [|y a']; [discriminate|]. injection E as <- E.
    split.
    - rewrite last_dump_app. cbn [last_dump]. assert (Z : last_dump (vs ++ CountHeader :: a') = None); [|rewrite Z; reflexivity].
      rewrite last_dump_app. cbn [last_dump]. assert (Z1 : last_dump a' = None).
      { clear - E. revert a' E. generalize (most_common (map (lowered p) es)). induction l as [|x l IH]; intros a' E; [destruct a'; discriminate|]. destruct a' as [|y a']; [reflexivity|]. injection E as <- E. cbn [last_dump]. rewrite (IH _ E). reflexivity. }
      rewrite Z1. clear - V. induction vs as [|x vs IH]; [reflexivity|]. cbn [last_dump]. rewrite IH by (intros y Hy; apply V; right; exact Hy). destruct (V x (or_introl eq_refl)) as [[c [l ->]]|[d ->]]; reflexivity.
    - apply count_In. rewrite E. apply in_elt.
  Qed.
  Lemma dump_counted : forall t out es p d, dump_lines lower t = (out, Ok tt) -> In (es, p) (dumped t) -> In d (map (lowered p) es) ->
    exists pre post, out = pre ++ Count d (occurrences d (map (lowered p) es)) :: post /\ last_dump pre = Some p.
  Proof.
    intros t out es p d H Hq Hd. pose proof (proj1 (dump_ok t) ltac:(rewrite H; reflexivity)) as K. rewrite (dump_out _ _ H).
    destruct (label_lines _ _ (K _ Hq)) as [vs [F V]]. cbn [fst snd] in F. apply in_split in Hq. destruct Hq as [l1 [l2 ->]]. rewrite flat_map_app. cbn [flat_map fst snd]. rewrite F.
    pose proof (proj2 (count_In (map (lowered p) es) d _) (conj Hd eq_refl)) as C. apply in_split in C. destruct C as [c1 [c2 C]]. rewrite C.
    exists (flat_map (fun q => fst (lab (fst q) (snd q))) l1 ++ DumpHeader p :: vs ++ CountHeader :: c1). eexists. split.
    - rewrite <- !app_assoc. cbn [app]. f_equal. f_equal. rewrite <- !app_assoc. cbn [app]. f_equal. f_equal. rewrite <- !app_assoc. reflexivity.
    - rewrite last_dump_app. cbn [last_dump]. assert (Z : last_dump (vs ++ CountHeader :: c1) = None); [|rewrite Z; reflexivity]. rewrite last_dump_app. cbn [last_dump].
      assert (Z1 : last_dump c1 = None). { clear - C. revert c1 C. generalize (most_common (map (lowered p) es)). intros l c1 C. assert (Q : forall x, In x c1 -> exists a b, x = Count a b).
        { intros x Hx. assert (Hy : In x (map (fun x => Count (fst x) (snd x)) l)) by (rewrite C; apply in_app_iff; left; exact Hx). apply in_map_iff in Hy. destruct Hy as [y [<- _]]. eauto. }
        clear C. induction c1 as [|x c1 IH]; [reflexivity|]. cbn [last_dump]. rewrite IH by (intros y Hy; apply Q; right; exact Hy). destruct (Q x (or_introl eq_refl)) as [a [b ->]]. reflexivity. }
      rewrite Z1. clear - V. induction vs as [|x vs IH]; [reflexivity|]. cbn [last_dump]. rewrite IH by (intros y Hy; apply V; right; exact Hy). destruct (V x (or_introl eq_refl)) as [[c [l ->]]|[d ->]]; reflexivity.
  Qed.
  Lemma dump_variant : forall t out pre post c l, dump_lines lower t = (out, Ok tt) -> out = pre ++ DumpVariant c l :: post ->
    exists es p e d post', In (es, p) (dumped t) /\ last_dump pre = Some p /\ In e es /\ ce_cp e = l /\ ce_cat e = c /\ l <> p /\ disp_for p e = Some d /\ post = DumpDisposition d :: post'.
  Proof.
    intros t out pre post c l H E. pose proof (proj1 (dump_ok t) ltac:(rewrite H; reflexivity)) as K. rewrite (dump_out _ _ H) in E. pose proof E as E0. apply split_flat in E.
    destruct E as [l1 [[es p] [l2 [a [b [El [E ->]]]]]]]. assert (Hq : In (es, p) (dumped t)) by (rewrite El; apply in_elt). cbn [fst snd] in E.
    pose proof (label_shape _ _ (K _ Hq)) as F. cbn [fst snd] in F. rewrite F in E. destruct a as [|y a]; [discriminate|]. injection E as <- E.
    apply split_right in E; [|intros [Q|Q]; [discriminate|]; apply in_map_iff in Q; destruct Q as [z [Q _]]; discriminate]. destruct E as [b' [E ->]].
    pose proof E as E1. apply split_flat in E1. destruct E1 as [m1 [e [m2 [u [v [Em [Ev Eu]]]]]]]. unfold variant_lines in Ev. destruct (cps_eqb (ce_cp e) p) eqn:Ep; [destruct u; discriminate|].
    destruct u as [|y u]; [|destruct u as [|z u]; [discriminate|destruct u; discriminate]]. injection Ev as <- <- <-. assert (He : In e es) by (rewrite Em; apply in_elt).
    destruct (proj1 (label_ok es p) (K _ Hq) e He) as [d Hd]. exists es, p, e, (Some d). rewrite app_nil_r in Eu. subst a.
    assert (Hp : exists post', post = DumpDisposition (Some d) :: post').
    { rewrite El, flat_map_app in E0. cbn [flat_map fst snd] in E0. rewrite F in E0. rewrite <- !app_assoc in E0. apply app_inv_head in E0. cbn [app] in E0. injection E0 as E0. rewrite Em, flat_map_app in E0. rewrite <- !app_assoc in E0. apply app_inv_head in E0.
      cbn [flat_map] in E0. unfold variant_lines in E0 at 1. rewrite Ep in E0. unfold disp_for in Hd, E0. rewrite Hd in E0. cbn [app] in E0. injection E0 as E0. subst post. eexists. reflexivity. }
    destruct Hp as [post' Hp]. exists post'. split; [exact Hq|]. split.
    { rewrite last_dump_app. cbn [last_dump]. rewrite variant_no_dump. reflexivity. }
    split; [exact He|]. split; [reflexivity|]. split; [reflexivity|]. split; [|split; [exact Hd|exact Hp]]. intro Q. rewrite Q, cps_eqb_refl in Ep. discriminate.
  Qed.
  Lemma dump_variants_all : forall t out es p e d, dump_lines lower t = (out, Ok tt) -> In (es, p) (dumped t) -> In e es -> ce_cp e <> p -> disp_for p e = Some d ->
    exists pre post, out = pre ++ DumpVariant (ce_cat e) (ce_cp e) :: DumpDisposition d :: post /\ last_dump pre = Some p.
  Proof.
    intros t out es p e d H Hq He Hne Hd. pose proof (proj1 (dump_ok t) ltac:(rewrite H; reflexivity)) as K. rewrite (dump_out _ _ H).
    pose proof (label_shape _ _ (K _ Hq)) as F. cbn [fst snd] in F. apply in_split in Hq. destruct Hq as [l1 [l2 ->]]. rewrite flat_map_app. cbn [flat_map fst snd]. rewrite F.
    apply in_split in He. destruct He as [m1 [m2 ->]]. rewrite flat_map_app. cbn [flat_map]. unfold variant_lines at 2. destruct (cps_eqb (ce_cp e) p) eqn:Ep; [apply cps_eqb_eq in Ep; contradiction|]. rewrite Hd.
    exists (flat_map (fun q => fst (lab (fst q) (snd q))) l1 ++ DumpHeader p :: flat_map (variant_lines p) m1). eexists. split.
    - rewrite <- !app_assoc. cbn [app]. f_equal. f_equal. rewrite <- !app_assoc. cbn [app]. reflexivity.
    - rewrite last_dump_app. cbn [last_dump]. rewrite variant_no_dump. reflexivity.
  Qed.
  Lemma dump_headers : forall t out p, dump_lines lower t = (out, Ok tt) -> (In (DumpHeader p) out <-> exists es, In (es, p) (dumped t)).
  Proof.
    intros t out p H. pose proof (proj1 (dump_ok t) ltac:(rewrite H; reflexivity)) as K. rewrite (dump_out _ _ H), in_flat_map. split.
    - intros [[es q] [Hq Hx]]. cbn [fst snd] in Hx. pose proof (label_shape _ _ (K _ Hq)) as F. cbn [fst snd] in F. rewrite F in Hx. destruct Hx as [Hx|Hx]; [injection Hx as ->; eauto|].
      apply in_app_iff in Hx. destruct Hx as [Hx|[Hx|Hx]]; [destruct (variant_only _ _ _ Hx) as [[c [l Q]]|[d Q]]; discriminate|discriminate|]. apply in_map_iff in Hx. destruct Hx as [z [Q _]]. discriminate.
    - intros [es Hq]. exists (es, p). split; [exact Hq|]. cbn [fst snd]. pose proof (label_shape _ _ (K _ Hq)) as F. cbn [fst snd] in F. rewrite F. left. reflexivity.
  Qed.
  (** Below a label the counts are in order. *)
  Lemma counts_order : forall ds a b c d n d' m, map (fun x => Count (fst x) (snd x)) (most_common ds) = a ++ Count d n :: b ++ Count d' m :: c -> m <= n /\ d <> d'.
  Proof.
    intros ds a b c d n d' m H.
    assert (S : StronglySorted (fun x y : string * nat => Nat.leb (snd y) (snd x) = true) (most_common ds)).
    { apply isort_sorted.
      - intros x y. rewrite !Nat.leb_le. lia.
      - intros x y z. rewrite !Nat.leb_le. lia. }
    assert (N : NoDup (map fst (most_common ds))).
    { eapply Permutation_NoDup; [apply Permutation_map; apply isort_perm|]. rewrite map_map. cbn [fst]. rewrite map_id. apply (dedup_NoDup _ _ string_eqb_iff). }
    revert S N H. generalize (most_common ds). intros l S N. revert a. induction l as [|[x k] l IH]; intros a H; [destruct a; discriminate|]. cbn [map fst snd] in H, N.
    inversion S as [|? ? S1 S2]; subst. inversion N as [|? ? N1 N2]; subst. destruct a as [|y a]; cbn [app] in H.
    - injection H as -> -> H. assert (K : In (d', m) l).
      { assert (Q : In (Count d' m) (map (fun x => Count (fst x) (snd x)) l)) by (rewrite H; apply in_elt). apply in_map_iff in Q. destruct Q as [[u v] [Q1 Q2]]. cbn in Q1. injection Q1 as -> ->. exact Q2. }
      split.
      + rewrite Forall_forall in S2. specialize (S2 _ K). cbn [snd] in S2. apply Nat.leb_le in S2. exact S2.
      + intros ->. apply N1. apply in_map_iff. exists (d', m). auto.
    - injection H as _ H. exact (IH S1 N2 a H).
  Qed.
  Lemma before_header : forall {A} (x : A) mid post b rest, mid ++ x :: post = b ++ rest -> (rest = [] \/ exists y r, rest = y :: r /\ y <> x /\ ~ In y mid) ->
    exists post', b = mid ++ x :: post'.
  Proof.
    intros A x. induction mid as [|z mid IH]; intros post b rest H R.
    - destruct b as [|w b]; [|injection H as <- _; exists b; reflexivity]. cbn [app] in H. destruct R as [->|[y [r [-> [R _]]]]]; [discriminate|]. injection H as -> _. contradiction.
    - destruct b as [|w b].
      + cbn [app] in H. destruct R as [->|[y [r [-> [_ R]]]]]; [discriminate|]. injection H as -> _. exfalso. apply R. left. reflexivity.
      + injection H as <- H. destruct (IH _ _ _ H) as [post' ->]; [|exists post'; reflexivity]. destruct R as [R|[y [r [R1 [R2 R3]]]]]; [left; exact R|]. right. exists y, r. split; [exact R1|]. split; [exact R2|].
        intro K. apply R3. right. exact K.
  Qed.
  Lemma dump_order : forall t out pre mid post d n d' m, dump_lines lower t = (out, Ok tt) -> out = pre ++ Count d n :: mid ++ Count d' m :: post -> last_dump mid = None -> m <= n /\ d <> d'.
  Proof.
    intros t out pre mid post d n d' m H E Nm. pose proof (proj1 (dump_ok t) ltac:(rewrite H; reflexivity)) as K. rewrite (dump_out _ _ H) in E. pose proof E as E0. apply split_flat in E.
    destruct E as [l1 [[es p] [l2 [a [b [El [E ->]]]]]]]. assert (Hq : In (es, p) (dumped t)) by (rewrite El; apply in_elt). cbn [fst snd] in E.
    rewrite El, flat_map_app in E0. cbn [flat_map fst snd] in E0. rewrite E in E0. rewrite <- !app_assoc in E0. apply app_inv_head in E0. apply app_inv_head in E0. cbn [app] in E0. injection E0 as E0.
    assert (Hb : exists post', b = mid ++ Count d' m :: post').
    { apply (before_header _ _ post _ (flat_map (fun q => fst (lab (fst q) (snd q))) l2)); [symmetry; exact E0|]. destruct l2 as [|[es' p'] l2]; [left; reflexivity|right].
      assert (Hq' : In (es', p') (dumped t)) by (rewrite El; apply in_app_iff; right; right; left; reflexivity).
      destruct (label_lines _ _ (K _ Hq')) as [vs [F V]]. cbn [fst snd flat_map] in F |- *. rewrite F. exists (DumpHeader p'). eexists. split; [reflexivity|]. split; [discriminate|].
      intro Q. apply in_split in Q. destruct Q as [q1 [q2 ->]]. rewrite last_dump_app in Nm. cbn [last_dump] in Nm. destruct (last_dump q2); discriminate. }
    destruct Hb as [post' ->]. destruct (label_lines _ _ (K _ Hq)) as [vs [F V]]. cbn [fst snd] in F. rewrite F in E. destruct a as [|y a]; [discriminate|]. injection E as <- E.
    apply split_left in E; [|intro Q; destruct (V _ Q) as [[c [l Q']]|[x Q']]; discriminate]. destruct E as [a' [-> E]]. destruct a' as [|y a']; [discriminate|]. injection E as <- E.
    exact (counts_order _ _ _ _ _ _ _ _ E).
  Qed.
End Dump.
