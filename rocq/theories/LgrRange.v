From Coq Require Import Sorting.Sorted Permutation.
From Verif Require Import Base BaseFacts CharModel RepSpec RepProofs RangeProofs UtilsModel UtilsSpec UtilsProofs RefModel LgrModel LgrSpec LgrProofs LgrReach.

Lemma collapse_sorted_exact : forall l, l <> [] -> StronglySorted N.lt l ->
  exists rs, collapse_codepoints l = Ok rs /\ expand_ranges_list rs = l /\ Forall (fun p => fst p <= snd p) rs.
Proof.
  intros l Hne Hs.
  assert (Hs' : StronglySorted (le_ N.leb) l).
  { clear Hne. induction Hs as [|x l Hs IH Hf]; constructor; auto. rewrite Forall_forall in *. intros y Hy.
    unfold le_. apply N.leb_le. specialize (Hf y Hy). lia. }
  unfold collapse_codepoints. rewrite isort_id by exact Hs'.
  destruct l as [|c s]; [congruence|]. eexists. split; [reflexivity|].
  assert (Hcc : c <= c) by lia. split.
  - rewrite collapse_loop_expand by exact Hcc. rewrite nrange_single. reflexivity.
  - apply collapse_loop_sorted; auto.
Qed.

(** Which kind an entry inserted from a list of ranges gets. *)
Definition kind_in (rs : list (N * N)) (c : N) : kind :=
  match find (fun p => N.leb (fst p) c && N.leb c (snd p)) rs with
  | Some (f, l) => if N.eqb f l then KChar else KRange f l
  | None => KChar
  end.

Definition true_ranges (rs : list (N * N)) : list (N * N) := filter (fun p => negb (N.eqb (fst p) (snd p))) rs.

Lemma memb_app : forall x l1 l2, memb N.eqb x (l1 ++ l2) = (memb N.eqb x l1 || memb N.eqb x l2)%bool.
Proof. intros. unfold memb. apply existsb_app. Qed.

Lemma insert_ranges_spec : forall rs r cm rf tg w nw r' x, wf_rep r ->
  NoDup (expand_ranges_list rs) -> Forall (fun p => fst p <= snd p) rs ->
  insert_ranges r cm rf tg w nw rs = (r', x) ->
  (x = Ok tt /\ (forall c, In c (expand_ranges_list rs) -> lk r [c] = None) /\
   (forall d, lk r' d = match d with
       | [c] => if memb N.eqb c (expand_ranges_list rs)
                then Some (mkChar [c] (kind_in rs c) cm rf tg w nw []) else lk r d
       | _ => lk r d end) /\
   Permutation (rep_ranges r') (true_ranges rs ++ rep_ranges r)) \/
  (exists pre c post, expand_ranges_list rs = pre ++ c :: post /\ x = Raise (CharAlreadyExists [c]) /\
   lk r [c] <> None /\ (forall c', In c' pre -> lk r [c'] = None) /\
   (forall d, lk r' d = match d with
       | [c'] => if memb N.eqb c' pre
                 then Some (mkChar [c'] (kind_in rs c') cm rf tg w nw []) else lk r d
       | _ => lk r d end)).
Proof.
  induction rs as [|[f la] rs IH]; intros r cm rf tg w nw r' x Hwf Hnd Hf H.
  - simpl in H. injection H as H1 H2. subst. left. split; auto. split; [intros c []|]. split; [|apply Permutation_refl].
    intros [|c [|c2 d]]; auto.
  - cbn [insert_ranges] in H. inversion Hf as [|? ? Hfl Hf']; subst. simpl in Hfl.
    change (expand_ranges_list ((f, la) :: rs)) with (nrange f la ++ expand_ranges_list rs) in *.
    apply NoDup_app_iff in Hnd. destruct Hnd as [Hn1 [Hn2 Hdis]].
    (* first range *)
    assert (Hfirst : forall r1 y,
      (if N.eqb f la
        then let '(r1, y) := rep_add_char r [f] cm rf tg w nw in (r1, bind y (fun _ => Ok tt))
        else rep_add_range r f la cm rf tg w nw true) = (r1, y) ->
      wf_rep r1 /\
      ((y = Ok tt /\ (forall c, f <= c <= la -> lk r [c] = None) /\
        (forall d, lk r1 d = match d with
           | [c] => if (N.leb f c && N.leb c la)%bool
                then Some (mkChar [c] (if N.eqb f la then KChar else KRange f la) cm rf tg w nw []) else lk r d
           | _ => lk r d end) /\
        Permutation (rep_ranges r1) (if N.eqb f la then rep_ranges r else (f, la) :: rep_ranges r)) \/
       (exists c, y = Raise (CharAlreadyExists [c]) /\ f <= c <= la /\ lk r [c] <> None /\
        (forall c', f <= c' < c -> lk r [c'] = None) /\
        (forall d, lk r1 d = match d with
           | [c'] => if (N.leb f c' && N.ltb c' c)%bool
                then Some (mkChar [c'] (if N.eqb f la then KChar else KRange f la) cm rf tg w nw []) else lk r d
           | _ => lk r d end)))).
    { intros r1 y E. destruct (N.eqb_spec f la) as [Efl|Efl].
      - subst la. pose proof (rsteps_add_char r [f] cm rf tg w nw) as Hst.
        rewrite rep_add_char_lk in E, Hst by discriminate.
        assert (Hwf1 : wf_rep r1).
        { eapply rsteps_wf; [exact Hwf|]. destruct (lk r [f]); simpl in Hst; injection E as E1 E2; subst; exact Hst. }
        split; [exact Hwf1|]. destruct (lk r [f]) as [ch|] eqn:El; injection E as E1 E2; subst.
        + right. exists f. split; [reflexivity|]. split; [lia|]. split; [congruence|]. split; [intros c' Hc'; lia|].
          intros [|c' [|c2 d]]; auto. destruct (N.leb_spec f c'), (N.ltb_spec c' f); simpl; auto; lia.
        + left. split; [reflexivity|]. split; [intros c Hc; replace c with f by lia; exact El|]. split.
          * intro d. rewrite lk_ins by (simpl; auto; discriminate). cbn [ch_cp kind_of].
            destruct d as [|c [|c2 d]]; try reflexivity.
            -- destruct (cps_eqb [c] [f]) eqn:Ec.
               ++ apply cps_eqb_eq in Ec. injection Ec as Ec. subst c.
                  destruct (N.leb_spec f f); [|lia]. reflexivity.
               ++ destruct (N.leb_spec f c), (N.leb_spec c f); simpl; auto.
                  assert (c = f) by lia. subst c. rewrite cps_eqb_refl in Ec. discriminate.
            -- destruct (cps_eqb (c :: c2 :: d) [f]) eqn:Ec; auto. apply cps_eqb_eq in Ec. discriminate.
          * unfold ins. simpl. apply Permutation_refl.
      - assert (Hwf1 : wf_rep r1).
        { eapply rsteps_wf; [exact Hwf|]. pose proof (rsteps_add_range r f la cm rf tg w nw true) as Hst.
          rewrite E in Hst. exact Hst. }
        split; [exact Hwf1|].
        pose proof E as E0.
        apply rep_add_range_spec in E; [|exact Hwf]. destruct y as [[]|e].
        + destruct E as [E1 [E2 [E3 E4]]]. left. split; [reflexivity|]. split.
          * intros c Hc. rewrite <- lookup_lk. auto.
          * split; [|exact E4]. intro d. rewrite <- lookup_lk, E3. destruct d as [|c [|c2 d]]; rewrite ?lookup_lk; reflexivity.
        + destruct E as [[E1 [E2 _]]|[[E1 _]|E]].
          * exfalso. apply E2. lia.
          * exfalso. subst e. unfold rep_add_range in E0. destruct (N.ltb_spec f la); [|lia].
            match type of E0 with context [add_range_loop ?a ?b ?c] =>
              pose proof (fun mk l r => add_range_loop_refines mk l r) as Hx; destruct (add_range_loop a b c) as [r2 [u|e2]] eqn:El end; [congruence|].
            injection E0 as E01 E02. subst.
            assert (Hmk : forall c : N, In c (nrange f la) -> ch_cp (mk_range_char c f la cm rf tg w nw) = [c] /\ wf_char (mk_range_char c f la cm rf tg w nw)).
            { intros c Hc. apply nrange_In in Hc. split; [reflexivity|]. split; simpl.
              - split; [constructor|]. intros k l0 [].
              - split; [assumption|]. split; [|reflexivity]. exists c. auto. }
            specialize (Hx _ (nrange f la) r (lk r) Hmk Hwf (fun c => eq_refl)). rewrite El in Hx.
            destruct (a_insert_range (lk r) (fun c => mk_range_char c f la cm rf tg w nw) (nrange f la)) as [m z] eqn:Ea.
            apply a_insert_range_spec in Ea; [|apply nrange_NoDup].
            destruct Hx as [_ [_ [_ Hx]]].
            destruct Ea as [[Ea _]|[l1 [c0 [l2 [_ [Ea _]]]]]]; subst z; discriminate.
          * destruct E as [c [E1 [E2 [E3 [E4 [E5 _]]]]]]. right. exists c. split; [congruence|]. split; auto.
            split; [rewrite <- lookup_lk; auto|]. split; [intros c' Hc'; rewrite <- lookup_lk; auto|].
            intro d. rewrite <- lookup_lk, E5. destruct d as [|c' [|c2 d]]; rewrite ?lookup_lk; reflexivity. }
    destruct (if N.eqb f la
        then let '(r1, y) := rep_add_char r [f] cm rf tg w nw in (r1, bind y (fun _ => Ok tt))
        else rep_add_range r f la cm rf tg w nw true) as [r1 y] eqn:E1.
    destruct (Hfirst r1 y eq_refl) as [Hwf1 [[Ey [Habs [Hlk Hrg]]]|[c [Ey [Hc [Hpr [Hbef Hlk]]]]]]]; clear Hfirst; subst y.
    + assert (Hrest : forall c, In c (expand_ranges_list rs) -> lk r1 [c] = lk r [c]).
      { intros c Hc. rewrite Hlk. destruct (N.leb f c && N.leb c la)%bool eqn:Eb; auto.
        apply andb_true_iff in Eb. rewrite !N.leb_le in Eb. exfalso. apply (Hdis c); auto. apply nrange_In. exact Eb. }
      assert (Hki : forall c, kind_in ((f, la) :: rs) c = if (N.leb f c && N.leb c la)%bool then (if N.eqb f la then KChar else KRange f la) else kind_in rs c).
      { intro c. unfold kind_in. cbn [find fst snd]. destruct (N.leb f c && N.leb c la)%bool; reflexivity. }
      apply IH in H; auto. destruct H as [[Hx [H1 [H2 H3]]]|[pre [c [post [H1 [H2 [H3 [H4 H5]]]]]]]].
      * left. split; auto. split.
        { intros c Hc. apply in_app_iff in Hc. destruct Hc as [Hc|Hc]; [apply Habs; apply nrange_In; exact Hc|].
          rewrite <- Hrest by exact Hc. auto. }
        split.
        { intro d. rewrite H2. destruct d as [|c [|c2 d]]; try (rewrite Hlk; reflexivity).
          rewrite memb_app, memb_nrange, Hki, Hlk.
          destruct (memb N.eqb c (expand_ranges_list rs)) eqn:Em.
          - rewrite orb_true_r. destruct (N.leb f c && N.leb c la)%bool eqn:Eb; [|reflexivity].
            exfalso. apply (memb_In _ _ N_eqb_iff) in Em. apply (Hdis c); auto. apply nrange_In.
            apply andb_true_iff in Eb. rewrite !N.leb_le in Eb. exact Eb.
          - rewrite orb_false_r. destruct (N.leb f c && N.leb c la)%bool; reflexivity. }
        { eapply perm_trans; [exact H3|]. unfold true_ranges. cbn [filter fst snd].
          destruct (N.eqb f la); simpl.
          - apply Permutation_app_head. exact Hrg.
          - eapply perm_trans; [apply Permutation_app_head; exact Hrg|]. apply Permutation_sym. apply Permutation_middle. }
      * right. exists (nrange f la ++ pre), c, post. split; [rewrite H1, <- app_assoc; reflexivity|].
        split; auto. assert (Hcin : In c (expand_ranges_list rs)) by (rewrite H1; apply in_app_iff; right; left; reflexivity).
        split; [rewrite <- Hrest by exact Hcin; exact H3|]. split.
        { intros c' Hc'. apply in_app_iff in Hc'. destruct Hc' as [Hc'|Hc']; [apply Habs; apply nrange_In; exact Hc'|].
          rewrite <- Hrest; auto. rewrite H1. apply in_app_iff. auto. }
        intro d. rewrite H5. destruct d as [|c' [|c2 d]]; try (rewrite Hlk; reflexivity).
        rewrite memb_app, memb_nrange, Hki, Hlk. destruct (memb N.eqb c' pre) eqn:Em.
        -- rewrite orb_true_r. destruct (N.leb f c' && N.leb c' la)%bool eqn:Eb; [|reflexivity].
           exfalso. apply (memb_In _ _ N_eqb_iff) in Em. apply (Hdis c').
           ++ apply nrange_In. apply andb_true_iff in Eb. rewrite !N.leb_le in Eb. exact Eb.
           ++ rewrite H1. apply in_app_iff. auto.
        -- rewrite orb_false_r. destruct (N.leb f c' && N.leb c' la)%bool; reflexivity.
    + injection H as H1 H2. subst r' x. right.
      assert (Hin : In c (nrange f la)) by (apply nrange_In; exact Hc).
      apply in_split in Hin. destruct Hin as [pre [post Hsp]].
      assert (Hpre : forall z, In z pre <-> f <= z < c).
      { assert (Hsorted : StronglySorted N.lt (nrange f la)).
        { clear. unfold nrange. remember (N.to_nat (la + 1 - f)) as n. clear Heqn.
          assert (Hg : forall s, StronglySorted N.lt (map (fun i : nat => f + N.of_nat i) (seq s n))).
          { induction n as [|n IHn]; intro s; simpl; constructor; auto. apply Forall_forall. intros z Hz.
            apply in_map_iff in Hz. destruct Hz as [i [Hi1 Hi2]]. apply in_seq in Hi2. lia. }
          apply Hg. }
        rewrite Hsp in Hsorted.
        assert (Hlt : (forall z, In z pre -> z < c) /\ (forall z, In z post -> c < z)).
        { clear - Hsorted. induction pre as [|p pre IHp]; simpl in Hsorted.
          - split; [intros z []|]. inversion Hsorted as [|? ? _ Hf]; subst. rewrite Forall_forall in Hf. exact Hf.
          - inversion Hsorted as [|? ? Hs Hf]; subst. destruct (IHp Hs) as [I1 I2]. rewrite Forall_forall in Hf. split; auto.
            intros z [Hz|Hz]; [subst; apply Hf; apply in_app_iff; right; left; reflexivity|auto]. }
        destruct Hlt as [L1 L2]. intro z. split.
        - intro Hz. split; [|auto]. assert (Hz' : In z (nrange f la)) by (rewrite Hsp; apply in_app_iff; auto).
          apply nrange_In in Hz'. lia.
        - intros Hz. assert (Hz' : In z (nrange f la)) by (apply nrange_In; lia). rewrite Hsp in Hz'.
          apply in_app_iff in Hz'. destruct Hz' as [Hz'|[Hz'|Hz']]; auto; [lia|]. specialize (L2 z Hz'). lia. }
      exists pre, c, (post ++ expand_ranges_list rs). split; [rewrite Hsp, <- app_assoc; reflexivity|].
      split; [reflexivity|]. split; auto. split.
      { intros c' Hc'. apply Hbef. apply Hpre. exact Hc'. }
      intro d. rewrite Hlk. destruct d as [|c' [|c2 d]]; auto.
      assert (Eb : memb N.eqb c' pre = (N.leb f c' && N.ltb c' c)%bool).
      { destruct (memb N.eqb c' pre) eqn:Em.
        - apply (memb_In _ _ N_eqb_iff) in Em. apply Hpre in Em. symmetry. apply andb_true_iff. rewrite N.leb_le, N.ltb_lt. exact Em.
        - apply (memb_false _ _ N_eqb_iff) in Em. rewrite Hpre in Em. symmetry. apply andb_false_iff. rewrite N.leb_gt, N.ltb_ge. lia. }
      rewrite Eb. destruct (N.leb f c' && N.ltb c' c)%bool eqn:Ec; auto.
      unfold kind_in. cbn [find fst snd]. apply andb_true_iff in Ec. rewrite N.leb_le, N.ltb_lt in Ec.
      destruct (N.leb_spec f c'), (N.leb_spec c' la); simpl; auto; lia.
Qed.

(** ** Selection *)
Lemma status_shape : forall g vr x s, range_status g vr x s ->
  s = None \/ s = Some (NotInRepertoire [x]) \/ s = Some (CharInvalidIdnaProperty [x]) \/ s = Some (CharAlreadyExists [x]).
Proof. intros g vr x s H. destruct H; auto. Qed.

Lemma to_insert_by : forall g vr ov fo x s, range_status g vr x s ->
  (to_insert g vr ov fo x <->
   s = None \/ (s = Some (NotInRepertoire [x]) /\ (ov = true \/ fo = true)) \/
   (s = Some (CharInvalidIdnaProperty [x]) /\ lg_raise g = false)).
Proof.
  intros g vr ov fo x s Hs. unfold to_insert. split.
  - intros [H|[[H1 H2]|[H1 H2]]].
    + left. eapply range_status_unique; eauto.
    + right. left. split; auto. eapply range_status_unique; eauto.
    + right. right. split; auto. eapply range_status_unique; [exact Hs|]. constructor. exact H1.
  - intros [H|[[H1 H2]|[H1 H2]]]; subst; auto. right. right. split; auto. inversion Hs; auto.
Qed.

Lemma blocks_by : forall g vr ov fo x s e, range_status g vr x s ->
  (blocks g vr ov fo x e <->
   s = Some e /\ ((e = NotInRepertoire [x] /\ ov = false /\ fo = false) \/
                  (e = CharInvalidIdnaProperty [x] /\ lg_raise g = true /\ fo = false) \/
                  (e = CharAlreadyExists [x] /\ fo = false))).
Proof.
  intros g vr ov fo x s e Hs. split.
  - intro H. destruct H as [H1 H2 H3|H1 H2 H3|H1 H2].
    + split; [eapply range_status_unique; eauto|auto].
    + split; [eapply range_status_unique; [exact Hs|constructor; exact H1]|auto].
    + split; [eapply range_status_unique; eauto|auto].
  - intros [H1 [[H2 [H3 H4]]|[[H2 [H3 H4]]|[H2 H3]]]]; subst.
    + constructor; auto.
    + constructor; auto. inversion Hs; auto.
    + constructor; auto.
Qed.

Lemma select_cps_cases : forall g vr ov fo st,
  (forall x s, In (x, s) st -> range_status g vr x s) ->
  (exists x e, first_such (fun y => exists e', blocks g vr ov fo y e') (map fst st) x /\
     blocks g vr ov fo x e /\ select_cps g ov fo st = Raise e) \/
  ((forall x e, In x (map fst st) -> ~ blocks g vr ov fo x e) /\
   exists keep, select_cps g ov fo st = Ok (filter keep (map fst st)) /\
     forall x, In x (map fst st) -> (keep x = true <-> to_insert g vr ov fo x)).
Proof.
  intros g vr ov fo st. induction st as [|[x s] st IH]; intro Hst.
  - right. split; [intros x e []|]. exists (fun _ => true). split; auto. intros x [].
  - assert (Hs : range_status g vr x s) by (apply Hst; left; reflexivity).
    specialize (IH (fun y t Hy => Hst y t (or_intror Hy))).
    cbn [map fst].
    (* the three possible behaviours for this code point *)
    assert (Hb : (exists e, blocks g vr ov fo x e /\ select_cps g ov fo ((x, s) :: st) = Raise e) \/
                 ((forall e, ~ blocks g vr ov fo x e) /\
                  ((to_insert g vr ov fo x /\
                    select_cps g ov fo ((x, s) :: st) = bind (select_cps g ov fo st) (fun r => Ok (x :: r))) \/
                   (~ to_insert g vr ov fo x /\ select_cps g ov fo ((x, s) :: st) = select_cps g ov fo st)))).
    { pose proof (fun e => blocks_by g vr ov fo x s e Hs) as Bb. pose proof (to_insert_by g vr ov fo x s Hs) as Tb.
      cbn [select_cps]. destruct (status_shape g vr x s Hs) as [E|[E|[E|E]]]; subst s.
      - right. split; [intros e He; apply Bb in He; destruct He as [He _]; discriminate|]. left. split; auto. apply Tb. auto.
      - destruct ov, fo; cbn [negb andb];
          try (right; split; [intros e He; apply Bb in He; destruct He as [He [[_ [H1 H2]]|[[H1 _]|[H1 _]]]]; congruence|];
               left; split; [apply Tb; auto|reflexivity]).
        left. eexists. split; [|reflexivity]. apply Bb. split; [reflexivity|]. rewrite ?Er. tauto.
      - destruct (lg_raise g) eqn:Er; cbn [negb].
        + destruct fo; cbn [negb].
          * right. split; [intros e He; apply Bb in He; destruct He as [He [[_ [H1 H2]]|[[H1 [_ H2]]|[H1 H2]]]]; congruence|].
            right. split; [|reflexivity]. intro Ht. apply Tb in Ht. destruct Ht as [Ht|[[Ht _]|[_ Ht]]]; discriminate.
          * left. eexists. split; [|reflexivity]. apply Bb. split; [reflexivity|]. rewrite ?Er. tauto.
        + right. split; [intros e He; apply Bb in He; destruct He as [He [[H1 _]|[[H1 [H2 _]]|[H1 _]]]]; congruence|].
          left. split; [apply Tb; auto|reflexivity].
      - destruct fo; cbn [negb].
        + right. split; [intros e He; apply Bb in He; destruct He as [He [[H0 [H1 H2]]|[[H1 [_ H2]]|[H1 H2]]]]; congruence|].
          right. split; [|reflexivity]. intro Ht. apply Tb in Ht. destruct Ht as [Ht|[[Ht _]|[Ht _]]]; discriminate.
        + left. eexists. split; [|reflexivity]. apply Bb. split; [reflexivity|]. rewrite ?Er. tauto. }
    destruct Hb as [[e [H1 H2]]|[Hnb Hb]].
    + left. exists x, e. split; [apply first_such_here; eauto|]. auto.
    + assert (Hnb' : ~ exists e', blocks g vr ov fo x e') by (intros [e' He']; exact (Hnb e' He')).
      destruct IH as [[y [e [A [B C]]]]|[A [keep [B C]]]].
      * left. exists y, e. split; [apply first_such_cons_neg; auto|]. split; auto.
        destruct Hb as [[_ Hb]|[_ Hb]]; rewrite Hb, C; reflexivity.
      * right. split; [intros y e [Hy|Hy]; [subst; apply Hnb|apply A; exact Hy]|].
        (* keep is redefined on x, consistently since the status is a function *)
        assert (Hd : exists b : bool, b = true <-> to_insert g vr ov fo x).
        { destruct Hb as [[H _]|[H _]]; [exists true|exists false]; split; try tauto; discriminate. }
        destruct Hd as [b Hbb].
        exists (fun y => if N.eqb y x then b else keep y).
        assert (Hfe : filter (fun y => if N.eqb y x then b else keep y) (map fst st) = filter keep (map fst st)).
        { apply filter_ext_in. intros y Hy. destruct (N.eqb_spec y x) as [E|E]; auto. subst y.
          specialize (C x Hy). destruct (keep x), b; auto; exfalso; assert (false = true) by tauto; discriminate. }
        split.
        -- cbn [filter]. rewrite N.eqb_refl, Hfe.
           destruct Hb as [[Ht Hb]|[Ht Hb]]; rewrite Hb, B.
           ++ apply Hbb in Ht. rewrite Ht. reflexivity.
           ++ destruct b; [exfalso; apply Ht; apply Hbb; reflexivity|reflexivity].
        -- intros y Hy. destruct (N.eqb_spec y x) as [E|E].
           ++ subst y. exact Hbb.
           ++ destruct Hy as [Hy|Hy]; [congruence|]. apply C. exact Hy.
Qed.

Lemma nrange_sorted : forall f l, StronglySorted N.lt (nrange f l).
Proof.
  intros f l. unfold nrange. remember (N.to_nat (l + 1 - f)) as n. clear Heqn.
  assert (Hg : forall s, StronglySorted N.lt (map (fun i : nat => f + N.of_nat i) (seq s n))).
  { induction n as [|n IHn]; intro s; simpl; constructor; auto. apply Forall_forall. intros z Hz.
    apply in_map_iff in Hz. destruct Hz as [i [Hi1 Hi2]]. apply in_seq in Hi2. lia. }
  apply Hg.
Qed.

Lemma filter_sorted : forall (k : N -> bool) l, StronglySorted N.lt l -> StronglySorted N.lt (filter k l).
Proof.
  intros k l H. induction H as [|x l H IH Hf]; simpl; [constructor|]. destruct (k x); auto. constructor; auto.
  rewrite Forall_forall in *. intros y Hy. apply filter_In in Hy. apply Hf. tauto.
Qed.

Lemma sorted_NoDup : forall l, StronglySorted N.lt l -> NoDup l.
Proof.
  intros l H. induction H as [|x l H IH Hf]; constructor; auto. intro Hx. rewrite Forall_forall in Hf.
  specialize (Hf x Hx). lia.
Qed.

Lemma sorted_split : forall pre c post, StronglySorted N.lt (pre ++ c :: post) ->
  (forall z, In z pre -> z < c) /\ (forall z, In z post -> c < z).
Proof.
  induction pre as [|p pre IHp]; simpl; intros c post Hs.
  - split; [intros z []|]. inversion Hs as [|? ? _ Hf]; subst. rewrite Forall_forall in Hf. exact Hf.
  - inversion Hs as [|? ? Hs' Hf]; subst. destruct (IHp c post Hs') as [I1 I2]. rewrite Forall_forall in Hf. split; auto.
    intros z [Hz|Hz]; [subst; apply Hf; apply in_app_iff; right; left; reflexivity|auto].
Qed.

Lemma add_range_collapsed : forall g f l cm rf tg w nw vr ov fo,
  exists r, first_failing (add_range_checks g f l rf tg w nw vr ov fo) r /\
  match r with
  | Some e => lgr_add_range g f l cm rf tg w nw vr ov fo = (g, Raise e)
  | None =>
      exists ks rs, StronglySorted N.lt ks /\ (forall y, In y ks <-> f <= y <= l /\ to_insert g vr ov fo y) /\
        expand_ranges_list rs = ks /\ Forall (fun p => fst p <= snd p) rs /\
        collapse_codepoints ks = Ok rs /\
        lgr_add_range g f l cm rf tg w nw vr ov fo =
        match insert_ranges (lg_rep g) cm (kept_refs g rf) tg w nw rs with
        | (r, Raise e) => (set_rep g r, Raise e)
        | (r, Ok _) => (fold_left (fun g x => add_cp_to_tag_classes g [x] tg) ks (set_rep g r), Ok tt)
        end
  end.
Proof.
  intros g f l cm rf tg w nw vr ov fo. unfold lgr_add_range, add_range_checks. cbn [first_failing].
  destruct (N.ltb_spec l f) as [Hlf|Hlf].
  { exists (Some (LGRApiInvalidParameter "first_cp")). split; auto. left. eexists. split; [|reflexivity]. auto. }
  assert (H0 : forall e, ~ (l < f /\ e = LGRApiInvalidParameter "first_cp")) by (intros e [H _]; lia).
  destruct (negb fo && is_some w && is_some nw)%bool eqn:Ec.
  { exists (Some (RangeInvalidContextRule f l)). split; auto.
    right. split; auto. left. eexists. split; [|reflexivity].
    apply andb_true_iff in Ec. destruct Ec as [Ec Hnw]. apply andb_true_iff in Ec. destruct Ec as [Hf Hw].
    split; [destruct fo; auto; discriminate|]. split; [apply is_some_iff; exact Hw|]. split; [apply is_some_iff; exact Hnw|]. reflexivity. }
  assert (H1 : forall e, ~ chk_context fo w nw (RangeInvalidContextRule f l) e).
  { intros e [A [B [C _]]]. subst fo. apply is_some_iff in B. apply is_some_iff in C. rewrite B, C in Ec. discriminate. }
  unfold check_range. destruct (N.ltb_spec l f) as [|_]; [lia|].
  destruct (statuses_cases g vr (nrange f l)) as [[x [A B]]|[A [st [B [C D]]]]]; rewrite B.
  { exists (Some (CharInvalidIdnaProperty [x])). split; auto. do 2 (right; split; auto). left. eexists. split; [|reflexivity]. exists x. auto. }
  assert (H2 : forall e, ~ exists x, first_such (fun y => ~ idna_invalid g y /\ vr_raises vr y) (nrange f l) x /\ e = CharInvalidIdnaProperty [x]).
  { intros e [x [Hx _]]. apply first_such_In in Hx. destruct Hx as [Hx1 [Hx2 Hx3]]. destruct (A x Hx1); tauto. }
  destruct (select_cps_cases g vr ov fo st D) as [[x [e [E1 [E2 E3]]]]|[E1 [keep [E2 E3]]]]; rewrite C in *.
  { rewrite E3. exists (Some e). split; auto. do 3 (right; split; auto). left. eexists. split; [|reflexivity]. exists x. auto. }
  rewrite E2.
  assert (H3 : forall e, ~ exists x, first_such (fun y => exists e', blocks g vr ov fo y e') (nrange f l) x /\ blocks g vr ov fo x e).
  { intros e [x [Hx Hb]]. apply first_such_In in Hx. apply (E1 x e); tauto. }
  destruct (collect_refs_cases g fo rf) as [[e [H7 H8]]|[H7 [H8 H9]]]; rewrite H7.
  { exists (Some e). split; auto. do 4 (right; split; auto). left. eauto. }
  destruct (has_dup (kept_refs g rf) && negb fo)%bool eqn:Ed.
  { apply if_neg_force in Ed. destruct Ed as [Ef Ed]. rewrite (H9 Ef) in Ed. apply has_dup_iff in Ed.
    exists (Some (DuplicateReference [f])). split; auto. do 5 (right; split; auto). left. eexists. split; [|reflexivity].
    split; auto. }
  assert (H10 : forall e, ~ chk_ref_dup fo rf (DuplicateReference [f]) e).
  { intros e [G1 [G2 _]]. subst fo. rewrite (H9 eq_refl) in Ed. apply has_dup_iff in G2. rewrite G2 in Ed. discriminate. }
  destruct (has_dup tg && negb fo)%bool eqn:Et.
  { apply if_neg_force in Et. destruct Et as [Ef Et]. apply has_dup_iff in Et.
    exists (Some (LGRFormatException DUPLICATE_TAG)). split; [|reflexivity]. do 6 (right; split; auto). left. eexists. split; [|reflexivity]. split; auto. }
  assert (H12 : forall e, ~ chk_tag_dup fo tg e).
  { intros e [G1 [G2 _]]. subst fo. apply has_dup_iff in G2. rewrite G2 in Et. discriminate. }
  assert (Hks : forall y, In y (filter keep (nrange f l)) <-> f <= y <= l /\ to_insert g vr ov fo y).
  { intro y. rewrite filter_In, nrange_In. split; intros [G1 G2]; split; auto; apply (E3 y); auto; apply nrange_In; exact G1. }
  assert (Hso : StronglySorted N.lt (filter keep (nrange f l))) by (apply filter_sorted, nrange_sorted).
  unfold insert_list. destruct (filter keep (nrange f l)) as [|k0 ks0] eqn:Ek.
  { exists (Some IndexError). split.
    - do 7 (right; split; auto). left. eexists. split; [|reflexivity]. split; auto.
      intros x Hx Ht. apply (proj2 (Hks x)). auto.
    - change (collapse_codepoints []) with (@Raise (list (N * N)) IndexError). cbv beta iota. rewrite set_rep_id. reflexivity. }
  exists None. split.
  - do 7 (right; split; auto). right. split; auto. intros e [G _]. apply (G k0); apply (Hks k0); left; reflexivity.
  - destruct (collapse_sorted_exact (k0 :: ks0)) as [rs [R1 [R2 R3]]]; [discriminate|exact Hso|].
    exists (k0 :: ks0), rs. split; auto. split; auto. split; auto. split; auto. split; [exact R1|]. rewrite R1. reflexivity.
Qed.

Lemma add_range_unfold : forall g f l cm rf tg w nw vr ov fo,
  exists r, first_failing (add_range_checks g f l rf tg w nw vr ov fo) r /\
  match r with
  | Some e => lgr_add_range g f l cm rf tg w nw vr ov fo = (g, Raise e)
  | None =>
      exists ks rs, StronglySorted N.lt ks /\ (forall y, In y ks <-> f <= y <= l /\ to_insert g vr ov fo y) /\
        expand_ranges_list rs = ks /\ Forall (fun p => fst p <= snd p) rs /\
        lgr_add_range g f l cm rf tg w nw vr ov fo =
        match insert_ranges (lg_rep g) cm (kept_refs g rf) tg w nw rs with
        | (r, Raise e) => (set_rep g r, Raise e)
        | (r, Ok _) => (fold_left (fun g x => add_cp_to_tag_classes g [x] tg) ks (set_rep g r), Ok tt)
        end
  end.
Proof.
  intros g f l cm rf tg w nw vr ov fo. destruct (add_range_collapsed g f l cm rf tg w nw vr ov fo) as [r [H1 H2]].
  exists r. split; [exact H1|]. destruct r as [e|]; [exact H2|].
  destruct H2 as [ks [rs [A [B [C [D [_ E]]]]]]]. exists ks, rs. auto.
Qed.

(** A failure of the checks changes nothing; otherwise exactly the wanted code
    points are inserted, in increasing order, up to the first one already
    present. *)
Theorem add_range_spec : forall g f l cm rf tg w nw vr ov fo, wf_rep (lg_rep g) ->
  exists r, first_failing (add_range_checks g f l rf tg w nw vr ov fo) r /\
  let wanted y := f <= y <= l /\ to_insert g vr ov fo y in
  let entry y k := mkChar [y] k cm (kept_refs g rf) tg w nw [] in
  let '(g', x) := lgr_add_range g f l cm rf tg w nw vr ov fo in
  match r with
  | Some e => x = Raise e /\ g' = g
  | None =>
      (x = Ok tt /\ (forall y, wanted y -> ~ present g [y]) /\
       (forall y, wanted y -> exists k, lookup (lg_rep g') [y] = Some (entry y k)) /\
       (forall d, (forall y, d = [y] -> ~ wanted y) -> lookup (lg_rep g') d = lookup (lg_rep g) d))
      \/
      (exists z, x = Raise (CharAlreadyExists [z]) /\ wanted z /\ present g [z] /\
       (forall y, wanted y -> y < z -> ~ present g [y] /\ exists k, lookup (lg_rep g') [y] = Some (entry y k)) /\
       (forall d, (forall y, d = [y] -> ~ (wanted y /\ y < z)) -> lookup (lg_rep g') d = lookup (lg_rep g) d))
  end.
Proof.
  intros g f l cm rf tg w nw vr ov fo Hwf.
  destruct (add_range_unfold g f l cm rf tg w nw vr ov fo) as [r [H1 H2]]. exists r. split; auto.
  cbv zeta. destruct r as [e|]; [rewrite H2; auto|].
  destruct H2 as [ks [rs [Hs [Hks [Hex [Hf Heq]]]]]]. rewrite Heq.
  destruct (insert_ranges (lg_rep g) cm (kept_refs g rf) tg w nw rs) as [r' x] eqn:Ei.
  apply insert_ranges_spec in Ei; auto; [|rewrite Hex; apply sorted_NoDup; exact Hs].
  rewrite Hex in Ei. destruct Ei as [[Ex [A [B _]]]|[pre [c [post [A0 [Ex [A [B C]]]]]]]]; subst x.
  - left. split; [reflexivity|]. split; [|split].
    + intros y Hy. rewrite present_lk. apply Hks in Hy. rewrite (A y Hy). congruence.
    + intros y Hy. apply Hks in Hy. rewrite fold_tags_rep. cbn [lg_rep set_rep]. exists (kind_in rs y). rewrite lookup_lk, B.
      apply (memb_In _ _ N_eqb_iff) in Hy. rewrite Hy. reflexivity.
    + intros d Hd. rewrite fold_tags_rep. cbn [lg_rep set_rep]. rewrite !lookup_lk, B. destruct d as [|y [|y2 d]]; auto.
      destruct (memb N.eqb y ks) eqn:Em; auto. apply (memb_In _ _ N_eqb_iff) in Em. apply Hks in Em.
      exfalso. apply (Hd y eq_refl). exact Em.
  - right. exists c. split; [reflexivity|]. rewrite A0 in Hs. destruct (sorted_split _ _ _ Hs) as [L1 L2].
    assert (Hpre : forall y, In y pre <-> (f <= y <= l /\ to_insert g vr ov fo y) /\ y < c).
    { intro y. rewrite <- Hks, A0, in_app_iff. simpl. split.
      - intro Hy. split; auto.
      - intros [[Hy|[Hy|Hy]] Hlt]; auto; [lia|]. specialize (L2 y Hy). lia. }
    split; [apply Hks; rewrite A0; apply in_app_iff; right; left; reflexivity|]. split; [apply present_lk; exact A|]. split.
    + intros y Hy Hlt. assert (Hp : In y pre) by (apply Hpre; auto). split.
      * rewrite present_lk, (B y Hp). congruence.
      * cbn [lg_rep set_rep]. exists (kind_in rs y). rewrite lookup_lk, C. apply (memb_In _ _ N_eqb_iff) in Hp. rewrite Hp. reflexivity.
    + intros d Hd. cbn [lg_rep set_rep]. rewrite !lookup_lk, C. destruct d as [|y [|y2 d]]; auto.
      destruct (memb N.eqb y pre) eqn:Em; auto. apply (memb_In _ _ N_eqb_iff) in Em. apply Hpre in Em.
      exfalso. apply (Hd y eq_refl). exact Em.
Qed.

(** All-or-nothing when no pre-check status can be overridden. *)
Theorem add_range_atomic : forall g f l cm rf tg w nw vr ov fo e g', wf_rep (lg_rep g) ->
  vr = None \/ (ov = false /\ fo = false) ->
  lg_raise g = true \/ lg_db g = None ->
  lgr_add_range g f l cm rf tg w nw vr ov fo = (g', Raise e) -> g' = g.
Proof.
  intros g f l cm rf tg w nw vr ov fo e g' Hwf Hvr Hdb H.
  destruct (add_range_spec g f l cm rf tg w nw vr ov fo Hwf) as [r [_ H2]]. cbv zeta in H2. rewrite H in H2.
  destruct r as [e0|]; [tauto|]. destruct H2 as [[H2 _]|[z [_ [[_ Hz] [Hp _]]]]]; [discriminate|]. exfalso.
  destruct Hz as [Hz|[[Hz Ho]|[Hz Hr]]].
  - inversion Hz. contradiction.
  - destruct Hvr as [Hvr|[Ho1 Ho2]].
    + subst vr. inversion Hz; subst; discriminate.
    + destruct Ho; congruence.
  - destruct Hdb as [Hdb|Hdb]; [congruence|]. destruct Hz as [d [Hd _]]. congruence.
Qed.

(** Not all-or-nothing otherwise. *)
Definition lcp (c : cps) := LAddCp c None [] [] None None None false false.
Lemma add_range_not_atomic :
  exists db allow ops f l vr ov, let g := fst (lgr_run (new_lgr db allow) ops) in
    snd (lgr_add_range g f l None [] [] None None (Some vr) ov false) = Raise (CharAlreadyExists [l]) /\
    exists c, lookup (lg_rep g) c = None /\
      lookup (lg_rep (fst (lgr_add_range g f l None [] [] None None (Some vr) ov false))) c <> None.
Proof.
  exists None, true, [lcp [3]], 1, 3, (new_lgr None true), true. cbv zeta. split; [vm_compute; reflexivity|].
  exists [1]. split; [vm_compute; reflexivity|]. vm_compute. discriminate.
Qed.
Lemma add_range_not_atomic_idna :
  exists db ops f l, let g := fst (lgr_run (new_lgr db true) ops) in
    snd (lgr_add_range g f l None [] [] None None None false false) = Raise (CharAlreadyExists [l]) /\
    exists c, lookup (lg_rep g) c = None /\
      lookup (lg_rep (fst (lgr_add_range g f l None [] [] None None None false false))) c <> None.
Proof.
  exists (Some (mkDb (fun _ => false) (fun _ => EmptyString))), [lcp [3]], 1, 3. cbv zeta. split; [vm_compute; reflexivity|].
  exists [1]. split; [vm_compute; reflexivity|]. vm_compute. discriminate.
Qed.
