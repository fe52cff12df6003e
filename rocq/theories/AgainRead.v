(** What is read without force can be written. *)
From Verif Require Import Base BaseFacts UtilsModel UtilsSpec UtilsProofs CharModel RepSpec RepProofs VariantProofs VarSetProofs RefModel RefSpec RefProofs LgrModel LgrSpec LgrProofs LgrReach LgrInv LgrTags LgrRefs LgrMirror
  Rfc7940Model ValidateModel MetaModel MetaSpec MetaProofs MetaFinal CompareSpec TableSpec TableParts SerialModel SerialSpec SerialProofs SerialFinal RulesXmlModel DocModel DocFinal AgainSpec.
Open Scope string_scope.
Open Scope list_scope.
Open Scope N_scope.

(** ** Attributes *)
Lemma join_In : forall sep (l : list cps) w c, In w l -> In c w -> In c (join sep l).
Proof.
  induction l as [|x l IH]; intros w c Hw Hc; [contradiction|]. destruct Hw as [->|Hw].
  - destruct l; cbn [join]; [exact Hc|]. apply in_or_app. left. exact Hc.
  - specialize (IH w c Hw Hc). destruct l as [|y l]; [contradiction|]. change (join sep (x :: y :: l)) with (x ++ sep ++ join sep (y :: l)).
    apply in_or_app. right. apply in_or_app. right. exact IH.
Qed.
Lemma words_writable : forall o, writable_words (attr_words o).
Proof.
  intros [s|]; cbn [attr_words]; [|split; [discriminate|intros w []]].
  unfold string_to_list. destruct (txt s) as [|a l] eqn:E; [split; [discriminate|intros w []]|]. rewrite <- E.
  destruct (proj2 (split_on_is 32 (txt s) _) eq_refl) as [P1 [P2 P3]].
  assert (S : forall w, In w (split_on 32 (txt s)) -> Forall (fun c => c < 256) w).
  { intros w Hw. rewrite Forall_forall. intros c Hc. pose proof (txt_small s) as Hs. rewrite Forall_forall in Hs. apply Hs. rewrite P2. exact (join_In _ _ w c Hw Hc). }
  rewrite Forall_forall in P3. split.
  - intro K. destruct (split_on 32 (txt s)) as [|w [|w' ws]] eqn:F; [discriminate| |discriminate]. cbn [map] in K. injection K as K.
    cbn [join] in P2. specialize (S w (or_introl eq_refl)). apply txt_untxt in S. rewrite K in S. cbn [txt] in S. rewrite P2, <- S in E. discriminate.
  - intros w Hw. apply in_map_iff in Hw. destruct Hw as [v [<- Hv]]. unfold spaceless. rewrite (txt_untxt v (S v Hv)). exact (P3 v Hv).
Qed.

(** ** Entries *)
Definition neat (db : option unidb) (ra : bool) (ch : char) : Prop :=
  writable_words (ch_tags ch) /\ forall v, In v (get_variants ch) -> valid_in db ra (v_cp v).
Lemma neat_copy : forall db ra ch y k, neat db ra ch -> neat db ra (mkChar [y] k (ch_comment ch) (ch_refs ch) (ch_tags ch) (ch_when ch) (ch_not_when ch) []).
Proof. intros db ra ch y k [H _]. split; [exact H|]. intros v Hv. contradiction. Qed.
Lemma neat_delv : forall db ra ch ch' v w nw b, wf_char ch -> neat db ra ch -> char_del_variant ch v w nw = Ok (ch', b) -> neat db ra ch'.
Proof.
  intros db ra ch ch' v w nw b Hwf [H1 H2] H. destruct (char_del_variant_rest _ _ _ _ _ _ H) as [_ [E1 [_ [Hr Hne]]]].
  destruct (del_variant_cases ch v w nw Hwf Hr Hne) as [c2 [b2 [E2 [_ [_ E3]]]]]. rewrite H in E2. injection E2 as E2 E4. subst c2 b2.
  split; [rewrite E1; exact H1|]. intros u Hu. apply E3 in Hu. apply H2. tauto.
Qed.
Lemma neat_addv : forall db ra ch ch' v, wf_char ch -> neat db ra ch -> valid_in db ra (v_cp v) -> char_add_variant ch v = Ok ch' -> neat db ra ch'.
Proof.
  intros db ra ch ch' v Hwf [H1 H2] Hv H. destruct (char_add_variant_rest _ _ _ H) as [_ [E1 [_ [Hr Hne]]]].
  destruct (add_variant_cases ch v Hwf Hr Hne) as [[_ E]|[_ [c2 [E2 E3]]]]; [congruence|].
  rewrite H in E2. injection E2 as E2. subst c2.
  split; [rewrite E1; exact H1|]. intros u Hu. apply E3 in Hu. destruct Hu as [Hu|Hu]; [subst; exact Hv|auto].
Qed.
(** A class is there only for the tags in use. *)
Definition inhabited (t : dict string (list N)) : Prop := forall tag l, dget String.eqb tag t = Some l -> l <> [].
Lemma inhabited_add : forall c tags t, c <> [] -> inhabited t -> inhabited (fold_left (add_tag_class c) tags t).
Proof.
  intros c tags. induction tags as [|tg tags IH]; intros t Hc H; [exact H|]. cbn [fold_left]. apply IH; [exact Hc|]. intros tag l. unfold add_tag_class.
  rewrite (dget_dset _ string_eqb_iff). destruct (String.eqb tag tg); [|apply H]. intros K E. injection K as K. destruct c as [|x c]; [contradiction|].
  assert (I : In x l) by (rewrite <- K; apply set_update_In; right; left; reflexivity). rewrite E in I. contradiction.
Qed.
Lemma inhabited_step : forall g o, inhabited (lg_tags g) ->
  match o with LAddCp _ _ _ _ _ _ _ _ _ | LAddRange _ _ _ _ _ _ _ _ _ _ | LAddVariant _ _ _ _ _ _ _ _ _ _ => True | _ => False end -> inhabited (lg_tags (fst (lgr_step g o))).
Proof.
  intros g o H Ho. destruct o as [c cm rf tg w nw vr ov fo|c|f l cm rf tg w nw vr ov fo|f l|f l| |c v ty w nw cm rf vr ov fo|c v w nw|l cm rf tg|v c id|ref|t|]; try contradiction; cbn [lgr_step].
  - unfold lgr_add_cp. destruct (check_convert g c) as [c1|] eqn:C; [|exact H]. destruct (_ && _)%bool; [exact H|]. destruct (check_validating _ _ _ _ _); [|exact H].
    destruct (collect_refs _ _ _); [|exact H]. destruct (_ && _)%bool; [exact H|]. destruct (_ && _)%bool; [exact H|]. destruct (_ && _)%bool; [exact H|].
    destruct (rep_add_char _ _ _ _ _ _ _) as [r [q|e]]; [|exact H]. cbn [fst add_cp_to_tag_classes set_tags set_rep lg_tags]. apply inhabited_add; [|exact H].
    destruct (check_convert_cases g c) as [[e [K _]]|[K [Hne _]]]; congruence.
  - unfold lgr_add_range. destruct (N.ltb l f); [exact H|]. destruct (_ && _)%bool; [exact H|]. destruct (check_range _ _ _ _) as [st|]; [|exact H]. destruct (select_cps _ _ _ _) as [ks|]; [|exact H].
    destruct (collect_refs _ _ _); [|exact H]. destruct (_ && _)%bool; [exact H|]. destruct (_ && _)%bool; [exact H|]. destruct (insert_list _ _ _ _ _ _ _) as [r [q|e]]; [|exact H]. cbn [fst].
    assert (G : forall ks g0, inhabited (lg_tags g0) -> inhabited (lg_tags (fold_left (fun g x => add_cp_to_tag_classes g [x] tg) ks g0))).
    { induction ks0 as [|k ks0 IH]; intros g0 H0; [exact H0|]. cbn [fold_left]. apply IH. cbn [add_cp_to_tag_classes set_tags lg_tags]. apply inhabited_add; [discriminate|exact H0]. }
    apply G. exact H.
  - unfold lgr_add_variant. destruct (check_convert g c) as [c1|]; cbn [bind]; [|exact H]. destruct (check_convert g v) as [v1|]; cbn [bind]; [|exact H]. destruct (_ && _)%bool; [exact H|].
    destruct (check_validating _ _ _ _ _); [|exact H]. destruct (collect_refs _ _ _); [|exact H]. destruct (_ && _)%bool; [exact H|]. destruct (rep_add_variant _ _ _) as [r [q|e]]; exact H.
Qed.
Definition neat_fill (db : option unidb) (ra : bool) (R : refman) (g : lgr) : Prop := filling db ra R g /\ allch (neat db ra) (lg_rep g) /\ inhabited (lg_tags g).
Lemma neat_step : forall db ra R g o, neat_fill db ra R g -> CompareSpec.unforced o ->
  match o with LAddCp _ _ _ tg _ _ _ _ _ => writable_words tg | LAddRange _ _ _ _ tg _ _ _ _ _ => writable_words tg
             | LAddVariant _ v _ _ _ _ _ _ _ _ => valid_in db ra v | _ => False end ->
  match o with LAddRange _ _ _ _ _ _ _ _ _ _ => snd (lgr_step g o) = LUnit | _ => True end ->
  neat_fill db ra R (fst (lgr_step g o)).
Proof.
  intros db ra R g o [[F1 [F2 [F3 F4]]] [Ha Hi]] Hu Ho Hr. split; [|split].
  - split; [apply all_step; [exact F1|exact Hu|destruct o; auto; contradiction]|]. destruct (step_db g o) as [D1 D2]; [intros ->; exact Ho|]. split; [congruence|]. split; [congruence|].
    pose proof (step_refs g o) as Hs. destruct o; try contradiction; congruence.
  - apply (allch_step (neat db ra) (neat_copy db ra) (neat_delv db ra) (fun _ _ tg => writable_words tg)) with (okv := fun v => valid_in db ra (v_cp v));
      [intros c k cm rf tg w nw H; split; [exact H|intros v []]|exact (neat_addv db ra)|apply lgr_reachable_wf; apply F1|exact Ha|].
    destruct o; try contradiction; cbn [op_ok]; auto.
  - apply inhabited_step; [exact Hi|]. destruct o; try contradiction; exact I.
Qed.
Lemma attempt_ok : forall r p g r', attempt false r p = (g, r', Ok tt) -> p = (g, Ok tt).
Proof.
  intros r [g0 [[]|e]] g r' H; cbn [attempt] in H; [injection H as -> ->; reflexivity|]. destruct (is_lgr_exception e); discriminate.
Qed.
Lemma converts_valid : forall db ra R g c c', filling db ra R g -> check_convert g c = Ok c' -> c' = c /\ valid_in db ra c.
Proof.
  intros db ra R g c c' [_ [F2 [F3 _]]] H. destruct (check_convert_cases g c) as [[e [K _]]|[K [_ [_ Hn]]]]; rewrite K in H; [discriminate|]. injection H as <-. split; [reflexivity|].
  destruct ra; [|left; reflexivity]. right. intros x d Hx Hd. destruct (db_idna_valid d x) eqn:E; [reflexivity|]. exfalso.
  assert (Hi : exists y, first_such (idna_invalid g) c y).
  { assert (Dec : forall y, negb (db_idna_valid d y) = true <-> idna_invalid g y).
    { intro y. unfold idna_invalid. rewrite F2, Hd. rewrite negb_true_iff. split; [intro K'; exists d; auto|intros [d' [D1 D2]]; congruence]. }
    destruct (find_first_such N _ _ Dec c) as [[y [_ Hy]]|[_ Hno]]; [exists y; exact Hy|]. exfalso. apply (Hno x Hx). apply Dec. rewrite E. reflexivity. }
  destruct Hi as [y Hy]. apply (Hn (CharInvalidIdnaProperty [y])). split; [congruence|]. exists y. auto.
Qed.
Lemma vars_neat : forall db ra R vs g r c g' r', neat_fill db ra R g -> process_vars false g r c vs = (g', r', Ok tt) -> neat_fill db ra R g'.
Proof.
  intros db ra R. induction vs as [|v vs IH]; intros g r c g' r' H E; cbn [process_vars] in E; [injection E as <- <-; exact H|].
  destruct (parse_cps (ve_cp v)) as [vc|]; [|discriminate]. destruct (attempt false r _) as [[g1 r1] [[]|e]] eqn:A; [|discriminate]. apply attempt_ok in A.
  apply (IH _ _ _ _ _) in E; [exact E|].
  assert (V : valid_in db ra vc).
  { unfold lgr_add_variant in A. destruct (check_convert g c) as [c1|]; [|discriminate]. cbn [bind] in A. destruct (check_convert g vc) as [v1|] eqn:C; [|discriminate].
    exact (proj2 (converts_valid _ _ _ _ _ _ (proj1 H) C)). }
  pose proof (neat_step db ra R g (LAddVariant c vc (ve_type v) (ve_when v) (ve_not_when v) (ve_comment v) (attr_words (ve_ref v)) None false false) H eq_refl V I) as K.
  cbn [lgr_step] in K. rewrite A in K. exact K.
Qed.
Lemma data_neat : forall db ra R l g r prev g' r', neat_fill db ra R g -> process_data_loop false g r prev l = (g', r', Ok tt) -> neat_fill db ra R g'.
Proof.
  intros db ra R. induction l as [|[cp a vs|first last a x|] l IH]; intros g r prev g' r' H E; cbn [process_data_loop] in E; [injection E as <- <-; exact H| | |exact (IH _ _ _ _ _ H E)].
  - destruct (parse_cps cp) as [c|]; [|discriminate]. destruct (attempt false _ _) as [[g1 r1] [[]|e]] eqn:A; [|discriminate]. apply attempt_ok in A.
    destruct (process_vars false g1 r1 c vs) as [[g2 r2] [[]|e]] eqn:V; [|discriminate]. apply (IH _ _ _ _ _) in E; [exact E|]. refine (vars_neat _ _ _ _ _ _ _ _ _ _ V).
    pose proof (neat_step db ra R g (LAddCp c (at_comment a) (attr_words (at_ref a)) (attr_words (at_tag a)) (at_when a) (at_not_when a) None false false) H eq_refl (words_writable _) I) as K.
    cbn [lgr_step] in K. rewrite A in K. exact K.
  - destruct (parse_cp first) as [f|]; [|discriminate]. destruct (parse_cp last) as [la|]; [|discriminate]. destruct (attempt false _ _) as [[g1 r1] [[]|e]] eqn:A; [|discriminate]. apply attempt_ok in A.
    apply (IH _ _ _ _ _) in E; [exact E|].
    pose proof (neat_step db ra R g (LAddRange f la (at_comment a) (attr_words (at_ref a)) (attr_words (at_tag a)) (at_when a) (at_not_when a) None false false) H eq_refl (words_writable _)) as K.
    cbn [lgr_step] in K. rewrite A in K. exact (K eq_refl).
Qed.

Lemma neat_start : forall db allow R, started db allow R -> neat_fill db (negb allow) R (set_refs (new_lgr db allow) R).
Proof. intros db allow R H. split; [split; [exact H|repeat split; reflexivity]|]. split; [apply allch_empty|]. intros t l K. discriminate. Qed.

(** ** References *)
Definition neat_refs (rm : refman) : Prop := dget String.eqb "" (rm_refs rm) = None /\ comments_writable rm.
Lemma str_Z_nonempty : forall z, str_Z z <> "".
Proof.
  intros z H. assert (K : txt (str_Z z) = []) by (rewrite H; reflexivity). unfold str_Z in K. rewrite txt_untxt in K by apply py_str_small.
  unfold py_str_Z in K. destruct z; [exact (digits_nonempty _ _ K)|exact (digits_nonempty _ _ K)|discriminate].
Qed.
Lemma references_neat : forall l rm rm', process_references rm l = (rm', Ok tt) -> (forall r, In r l -> re_id r <> Some "" /\ re_comment r <> Some "") -> neat_refs rm -> neat_refs rm'.
Proof.
  induction l as [|e l IH]; intros rm rm' H Hl N; cbn [process_references] in H; [injection H as <-; exact N|].
  destruct (rm_add rm (re_value e) (re_comment e) (re_id e)) as [rm1 [s|y]] eqn:A; [|discriminate]. refine (IH _ _ H (fun r Hr => Hl r (or_intror Hr)) _).
  destruct (Hl e (or_introl eq_refl)) as [N1 N2]. destruct N as [M1 M2].
  assert (G : forall id n, id <> "" -> rm1 = mkRefman (dset String.eqb id (mkRef (re_value e) (re_comment e)) (rm_refs rm)) n -> neat_refs rm1).
  { intros id n Hid ->. split; cbn [rm_refs].
    - rewrite (dget_dset _ string_eqb_iff). destruct (String.eqb "" id) eqn:K; [apply String.eqb_eq in K; congruence|exact M1].
    - intros i r. cbn [rm_refs]. rewrite (dget_dset _ string_eqb_iff). destruct (String.eqb i id); [intro K; injection K as <-; exact N2|apply M2]. }
  unfold rm_add in A. destruct (re_id e) as [id|].
  - destruct (dmem _ _ _); [discriminate|]. destruct (ref_id_ok id); [|discriminate]. cbn [negb] in A. injection A as <- <-. apply (G id (rm_next rm)); [congruence|reflexivity].
  - destruct (next_free _ _ _) as [n|]; [|discriminate]. injection A as <- <-. apply (G (str_Z n) n); [apply str_Z_nonempty|reflexivity].
Qed.

(** ** Metadata *)
Section Meta.
  Variable lang : cps -> option bool.
  Variable dig : N -> bool.
  Hypothesis Hdig : dig 46 = false.
  Hypothesis Hascii : forall c, ascii_digit c = true -> dig c = true.
  Lemma default_version : starts_with_version dig (txt "6.3.0").
  Proof.
    exists [54], [51], [48], []. assert (D : forall c, ascii_digit c = true -> digit_run dig [c]) by (intros c Hc; split; [discriminate|]; constructor; [apply Hascii; exact Hc|constructor]).
    split; [exact (D 54 eq_refl)|]. split; [exact (D 51 eq_refl)|]. split; [exact (D 48 eq_refl)|]. reflexivity.
  Qed.
  Lemma writable_new : meta_writable lang dig new_metadata.
  Proof.
    split; [intros s H; discriminate|]. split; [intros s H; discriminate|]. split; [intros s H; discriminate|]. split; [exists (txt "6.3.0"); split; [reflexivity|apply default_version]|].
    split; [constructor|]. split; [intros l []|]. intros d H. discriminate.
  Qed.
  Lemma crlf_keeps : forall s, ~ In 13 s -> replace_crlf s = s.
  Proof. exact replace_none. Qed.
  Lemma elem_writable : forall m rm e m' rm', process_meta_elem lang dig false m rm e = (m', rm', Ok tt) -> plain_meta e -> meta_writable lang dig m -> neat_refs rm ->
    meta_writable lang dig m' /\ neat_refs rm'.
  Proof.
    intros m rm e m' rm' H P [M1 [M2 [M3 [M4 [M5 [M6 M7]]]]]] N.
    assert (W : meta_writable lang dig m) by (split; [exact M1|]; split; [exact M2|]; split; [exact M3|]; split; [exact M4|]; split; [exact M5|]; split; [exact M6|exact M7]).
    assert (D : forall s d, validate_date s false = Ok d -> full_date d).
    { intros s d K. destruct (validate_date_cases s false) as [[F E]|[[_ [_ E]]|[_ [_ E]]]]; rewrite E in K; [|discriminate|discriminate]. injection K as <-. exact F. }
    assert (D' : forall s d, validate_date s false = Ok d -> full_date_or_none (Some d)) by (intros s d K x Hx; injection Hx as <-; exact (D s d K)).
    destruct e as [t c|t|t|t|t|t|t ty|t ty|l|]; cbn [process_meta_elem] in H.
    - injection H as <- <-. split; [exact W|exact N].
    - destruct t as [t|]; cbn [needs_text fst snd] in H; [|discriminate]. unfold md_set_date in H. destruct (validate_date t false) as [d|] eqn:K; cbn [fst snd] in H; [|discriminate].
      injection H as <- <-. split; [|exact N]. split; [exact (D' _ _ K)|]. split; [exact M2|]. split; [exact M3|]. split; [exact M4|]. split; [exact M5|]. split; [exact M6|exact M7].
    - destruct t as [t|]; cbn [needs_text fst snd] in H; [|discriminate]. unfold md_set_start in H. destruct (validate_date t false) as [d|] eqn:K; cbn [fst snd] in H; [|discriminate].
      injection H as <- <-. split; [|exact N]. split; [exact M1|]. split; [exact (D' _ _ K)|]. split; [exact M3|]. split; [exact M4|]. split; [exact M5|]. split; [exact M6|exact M7].
    - destruct t as [t|]; cbn [needs_text fst snd] in H; [|discriminate]. unfold md_set_end in H. destruct (validate_date t false) as [d|] eqn:K; cbn [fst snd] in H; [|discriminate].
      injection H as <- <-. split; [|exact N]. split; [exact M1|]. split; [exact M2|]. split; [exact (D' _ _ K)|]. split; [exact M4|]. split; [exact M5|]. split; [exact M6|exact M7].
    - destruct t as [t|]; cbn [needs_text fst snd] in H; [|discriminate]. unfold md_set_unicode_version in H. destruct (version_prefix dig t) eqn:K; cbn [fst snd] in H; [|discriminate].
      injection H as <- <-. split; [|exact N]. split; [exact M1|]. split; [exact M2|]. split; [exact M3|].
      split; [exists t; split; [reflexivity|]; apply (version_prefix_iff dig Hdig); exact K|]. split; [exact M5|]. split; [exact M6|exact M7].
    - unfold md_add_language in H. destruct (lang (value_of t)) as [[]|] eqn:K; cbn [negb andb fst snd] in H; try discriminate.
      destruct (memb cps_eqb (value_of t) _) eqn:B; injection H as <- <-; (split; [|exact N]); (split; [exact M1|]; split; [exact M2|]; split; [exact M3|]; split; [exact M4|]).
      + split; [exact M5|]. split; [exact M6|exact M7].
      + cbn [set_md_languages set_md_checks md_languages md_description] in *. split; [|split; [|exact M7]].
        * apply NoDup_app_iff. split; [exact M5|]. split; [constructor; [intros []|constructor]|]. intros x Hx [<-|[]]. apply (memb_false _ _ cps_eqb_eq) in B. contradiction.
        * intros l Hl. apply in_app_iff in Hl. destruct Hl as [Hl|[<-|[]]]; [exact (M6 l Hl)|exact K].
    - injection H as <- <-. split; [|exact N]. exact W.
    - destruct t as [t|]; [|discriminate]. injection H as <- <-. split; [|exact N]. destruct P as [P1 P2].
      split; [exact M1|]. split; [exact M2|]. split; [exact M3|]. split; [exact M4|]. split; [exact M5|]. split; [exact M6|].
      intros d Hd. cbn [set_description_ md_description] in Hd. injection Hd as <-. cbn [desc_value desc_type]. rewrite (crlf_keeps t P1). split; [exact P2|exact P1].
    - destruct (process_references rm l) as [rm1 x] eqn:R. injection H as <- <- ->. split; [exact W|]. exact (references_neat _ _ _ R P N).
    - injection H as <- <-. split; [exact W|exact N].
  Qed.
  Lemma loop_writable : forall l m rm m' rm', process_meta_loop lang dig false m rm l = (m', rm', Ok tt) -> (forall e, In e l -> plain_meta e) -> meta_writable lang dig m -> neat_refs rm ->
    meta_writable lang dig m' /\ neat_refs rm'.
  Proof.
    induction l as [|e l IH]; intros m rm m' rm' H P W N; cbn [process_meta_loop] in H; [injection H as <- <-; auto|].
    destruct (process_meta_elem lang dig false m rm e) as [[m1 rm1] [[]|y]] eqn:E; [|discriminate].
    destruct (elem_writable _ _ _ _ _ E (P e (or_introl eq_refl)) W N) as [W1 N1]. exact (IH _ _ _ _ H (fun x Hx => P x (or_intror Hx)) W1 N1).
  Qed.

  (** ** Documents *)
  Theorem read_writable : forall db fuel allow d x, read_document lang dig db fuel allow false d = Ok (Some x) -> plain_document d ->
    meta_writable lang dig (ld_meta x) /\ comments_writable (lg_refs (ld_lgr x)) /\ proper (ld_lgr x) /\ tag_tidy (ld_lgr x) /\ tags_writable (ld_lgr x) /\
    ~ defined_ref (ld_lgr x) "" /\ admits (option_map fst db) allow (ld_lgr x) /\ inhabited (lg_tags (ld_lgr x)).
  Proof.
    intros db fuel allow d x H P. destruct (document_inv _ _ _ _ _ _ _ _ H) as [ml [m [rm [r [s [H1 [H2 [H3 [_ [_ H6]]]]]]]]]].
    unfold process_meta in H2. destruct (process_meta_loop lang dig false new_metadata empty_refman ml) as [[m1 rm1] [[]|e]] eqn:E; [|discriminate]. injection H2 as <- <-.
    destruct (loop_writable _ _ _ _ _ E (fun e He => P ml e H1 He) writable_new ltac:(split; [reflexivity|intros id q K; discriminate])) as [W [N1 N2]].
    pose proof (meta_started _ _ _ (option_map fst db) allow _ _ _ _ _ _ E (started_new _ _)) as K. unfold process_data in H3.
    destruct (process_data_loop false _ _ [] (dc_data d)) as [[g' r'] [[]|e]] eqn:L; [|discriminate]. injection H3 as -> _.
    destruct (data_neat _ _ _ _ _ _ _ _ _ (neat_start _ _ _ K) L) as [[[F1 [F2 F3]] [F4 [F5 F6]]] [A Inh]].
    split; [rewrite H6; exact W|]. split; [rewrite F6; exact N2|]. split; [exact F2|]. split; [exact F3|].
    split; [intros c ch Hc; rewrite lookup_lk in Hc; exact (proj1 (A c ch Hc))|]. split; [unfold defined_ref; rewrite F6; intro Q; apply Q; exact N1|].
    split; [|exact Inh]. destruct allow; [left; reflexivity|right]. intros y q [c [ch [Hc Ho]]] Hq. rewrite lookup_lk in Hc. destruct Ho as [Ho|[v [Hv Ho]]].
    - pose proof (reachable_accepting _ F1) as Acc. destruct (db_idna_valid q y) eqn:B; [reflexivity|]. exfalso. apply (Acc ltac:(rewrite F5; reflexivity) c y); [congruence|exact Ho|].
      exists q. split; [congruence|exact B].
    - destruct (proj2 (A c ch Hc) v Hv) as [B|B]; [discriminate|]. exact (B y q Ho Hq).
  Qed.
End Meta.
