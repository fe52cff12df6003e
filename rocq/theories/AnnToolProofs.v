(** Proofs about the annotation tool and the merge tool. *)
From Verif Require Import Base BaseFacts CharModel RepSpec ActionModel ActionSpec LabelModel LabelSpec UtilsModel CollisionModel
  AnnotateModel AnnotateSpec AnnotateRead AnnotateProofs CliModel CliLabel AnnToolModel AnnToolSpec.
Open Scope string_scope.
Open Scope list_scope.

Section Tools.
  Variables (decode : cps -> res cps) (read_file : string -> res (option tool_lgr)) (schema : option (string -> bool))
    (merge_set : list tool_lgr -> string -> res tool_lgr) (index : tool_lgr -> cps -> res cps)
    (listing : tool_lgr -> cps -> list cps -> list (cps * option string) * res unit) (render : note -> cps).
  Let tool := annotate_tool decode read_file schema merge_set index listing render.

  Lemma members_read : forall fs gs, members read_file fs gs <-> read_members read_file fs = Ok (Some gs).
  Proof.
    intros fs. induction fs as [|f fs IH]; intro gs; cbn [read_members]; split.
    - intro H. inversion H. reflexivity.
    - intro H. injection H as <-. constructor.
    - intro H. inversion H as [|? g ? gs' H1 H2]; subst. rewrite H1. cbn [bind]. apply IH in H2. rewrite H2. reflexivity.
    - destruct (read_file f) as [[g|]|e] eqn:E; cbn [bind]; try discriminate.
      destruct (read_members read_file fs) as [[gs'|]|e]; cbn [bind option_map]; try discriminate. intro H. injection H as <-.
      constructor; [exact E|]. apply IH. reflexivity.
  Qed.
  Lemma choose_last : forall script gs g, choose_script script gs None = Some g <-> last_speaker script gs g.
  Proof.
    intros script gs g. unfold last_speaker.
    assert (Hdet : forall l1 x l2 l1' x' l2', l1 ++ x :: l2 = l1' ++ x' :: l2' -> speaks script x -> speaks script x' ->
       (forall y, In y l2 -> ~ speaks script y) -> (forall y, In y l2' -> ~ speaks script y) -> x = x').
    { induction l1 as [|a l1 IH]; intros x l2 [|a' l1'] x' l2' E S1 S2 N1 N2; cbn [app] in E; injection E as E1 E2.
      - exact E1.
      - exfalso. apply (N1 x'); auto. rewrite E2. apply in_or_app. right. left. reflexivity.
      - exfalso. apply (N2 x); auto. rewrite <- E2. apply in_or_app. right. left. reflexivity.
      - eapply IH; eauto. }
    destruct (choose_found script gs None) as [[l1 [h [l2 [E [H1 [H2 H3]]]]]]|[H1 H2]].
    - rewrite H3. split.
      + intro H. injection H as <-. eauto.
      + intros [k1 [k2 [K1 [K2 K3]]]]. f_equal. rewrite E in K1. eapply Hdet; eauto.
    - rewrite H2. split; [discriminate|]. intros [k1 [k2 [K1 [K2 K3]]]]. exfalso. apply (H1 g); auto. rewrite K1. apply in_or_app. right. left. reflexivity.
  Qed.
  Lemma choose_none : forall script gs, choose_script script gs None = None <-> forall g, In g gs -> ~ speaks script g.
  Proof.
    intros script gs. destruct (choose_found script gs None) as [[l1 [h [l2 [E [H1 [H2 H3]]]]]]|[H1 H2]].
    - rewrite H3. split; [discriminate|]. intro H. exfalso. apply (H h); auto. rewrite E. apply in_or_app. right. left. reflexivity.
    - tauto.
  Qed.

  Lemma written : forall st a p lines, an_labels a <> an_output a -> dget String.eqb (an_labels a) st = Some lines ->
    exists st', write_notes decode index listing render st a p = (st', snd (notes_for decode index listing p lines)) /\
      only_changed st st' (an_output a) (map render (fst (notes_for decode index listing p lines))).
  Proof.
    intros st a p lines Hne Hl. unfold write_notes, open_read. rewrite Hl. rewrite (dget_dset _ string_eqb_iff).
    destruct (String.eqb (an_labels a) (an_output a)) eqn:E; [apply String.eqb_eq in E; contradiction|]. rewrite Hl.
    destruct (notes_for decode index listing p lines) as [ns o]. eexists. split; [reflexivity|]. split.
    - rewrite (dget_dset _ string_eqb_iff), String.eqb_refl. reflexivity.
    - intros f Hf. rewrite !(dget_dset _ string_eqb_iff). destruct (String.eqb f (an_output a)) eqn:Ef; [apply String.eqb_eq in Ef; contradiction|reflexivity].
  Qed.
  Lemma written_in_place : forall st a p lines, an_labels a = an_output a -> dget String.eqb (an_labels a) st = Some lines ->
    exists st', write_notes decode index listing render st a p = (st', snd (notes_for decode index listing p [])) /\
      only_changed st st' (an_output a) (map render (fst (notes_for decode index listing p []))).
  Proof.
    intros st a p lines He Hl. unfold write_notes, open_read. rewrite Hl. rewrite (dget_dset _ string_eqb_iff). rewrite He, String.eqb_refl.
    destruct (notes_for decode index listing p []) as [ns o]. eexists. split; [reflexivity|]. split.
    - rewrite (dget_dset _ string_eqb_iff), String.eqb_refl. reflexivity.
    - intros f Hf. rewrite !(dget_dset _ string_eqb_iff). destruct (String.eqb f (an_output a)) eqn:Ef; [apply String.eqb_eq in Ef; contradiction|reflexivity].
  Qed.

  Lemma passes_checked : forall f g, passes schema f -> read_file f = Ok (Some g) -> read_checked read_file schema f = Ok (Some g).
  Proof. intros f g H E. unfold read_checked, passes in *. destruct schema as [ok|]; [rewrite H|]; exact E. Qed.

  Theorem one_annotated : forall st a f g lines, (forall s, decode s <> Ok []) -> an_lgrs a = [f] -> passes schema f -> read_file f = Ok (Some g) ->
    reachable (tl_rep g) -> rules_named (tl_rep g) -> an_labels a <> an_output a -> dget String.eqb (an_labels a) st = Some lines ->
    exists st' groups, tool st a = (st', Ok None) /\ only_changed st st' (an_output a) (map render (concat groups)) /\
      Forall2 (annotation (tl_rules g) (tl_rep g) (tl_actions g)) (fst (read_labels decode false false lines)) groups.
  Proof.
    intros st a f g lines Hd Ha Hp Hf Hr Hn Hne Hl. unfold tool, annotate_tool, process_set. rewrite Ha, (passes_checked f g Hp Hf). cbn [bind].
    destruct (written st a (ForOne g) lines Hne Hl) as [st' [W1 W2]]. cbn [notes_for] in W1, W2.
    destruct (annotate_spec decode (tl_rules g) (tl_rep g) (tl_actions g) lines Hd Hr Hn) as [groups [G1 G2]]. rewrite G1 in W1, W2. cbn [fst snd] in W1, W2.
    rewrite W1. exists st', groups. split; [reflexivity|]. auto.
  Qed.

  Theorem set_annotated : forall st a f1 f2 fs gs m s lines set_lines, an_lgrs a = f1 :: f2 :: fs -> an_script a <> "" ->
    members read_file (an_lgrs a) gs -> merge_set gs "merged-lgr-set" = Ok m -> last_speaker (an_script a) gs s ->
    (an_set_labels a = "" /\ set_lines = [] \/ an_set_labels a <> "" /\ dget String.eqb (an_set_labels a) st = Some set_lines) ->
    an_labels a <> an_output a -> dget String.eqb (an_labels a) st = Some lines ->
    exists st' out o, tool st a = (st', o) /\ only_changed st st' (an_output a) (map render out) /\
      lgr_set_annotate decode (tl_rules m) (tl_rules s) (tl_rep m) (tl_rep s) (tl_actions m) (tl_actions s) (index m) (listing m) set_lines lines =
        (out, match o with Ok _ => Ok tt | Raise e => Raise e end) /\ (o = Ok None \/ exists e, o = Raise e).
  Proof.
    intros st a f1 f2 fs gs m s lines set_lines Ha Hs Hm Hg Hsp Hset Hne Hl. unfold tool, annotate_tool, process_set.
    apply members_read in Hm. apply choose_last in Hsp. apply String.eqb_neq in Hs.
    assert (Hpair : merged_pair read_file merge_set (an_lgrs a) "" = Ok (m, gs)).
    { unfold merged_pair. rewrite Hm. cbn [bind String.eqb]. rewrite Hg. reflexivity. }
    rewrite Ha in Hpair |- *. rewrite Hs. cbn [negb andb]. rewrite Hpair. cbn [bind fst snd].
    assert (Ho : (if String.eqb (an_set_labels a) "" then Ok [] else open_read st (an_set_labels a)) = Ok set_lines).
    { destruct Hset as [[-> ->]|[H1 H2]]; [reflexivity|]. apply String.eqb_neq in H1. rewrite H1. unfold open_read. rewrite H2. reflexivity. }
    rewrite Ho. cbn [bind]. rewrite Hsp. destruct (written st a (ForSet m s set_lines) lines Hne Hl) as [st' [W1 W2]]. rewrite W1. cbn [notes_for] in *.
    destruct (lgr_set_annotate decode (tl_rules m) (tl_rules s) (tl_rep m) (tl_rep s) (tl_actions m) (tl_actions s) (index m) (listing m) set_lines lines) as [out o].
    cbn [fst snd] in *. exists st', out, (bind o (fun _ => Ok None)). split; [reflexivity|]. split; [exact W2|]. destruct o as [[]|e]; cbn [bind]; split; eauto.
  Qed.

  (** Which runs leave the files as they are, and why. *)
  Theorem nothing_done : forall st a m, snd (tool st a) = Ok (Some m) ->
    fst (tool st a) = st /\
    match m with
    | NoScriptGiven => an_script a = "" /\ (2 <= length (an_lgrs a))%nat
    | NoSetLabels => False
    | ScriptNotFound => an_script a <> "" /\ exists gs, members read_file (an_lgrs a) gs /\ (2 <= length gs)%nat /\ forall g, In g gs -> ~ speaks (an_script a) g
    | NotReadable => exists f, an_lgrs a = [f] /\ (~ passes schema f \/ read_file f = Ok None)
    end.
  Proof.
    intros st a m. unfold tool, annotate_tool, process_set. destruct (an_lgrs a) as [|f [|f2 fs]] eqn:Ea; [discriminate| |].
    - destruct (read_checked read_file schema f) as [[g|]|e] eqn:E; cbn [bind fst snd].
      + destruct (write_notes decode index listing render st a (ForOne g)) as [st' [o|e]]; cbn [snd bind]; discriminate.
      + intro H. injection H as <-. split; [reflexivity|]. exists f. split; auto. unfold read_checked, passes in *. destruct schema as [ok|]; auto.
        destruct (ok f); auto.
      + discriminate.
    - destruct (String.eqb (an_script a) "") eqn:Es; cbn [negb andb].
      + intro H. injection H as <-. split; [reflexivity|]. split; [apply String.eqb_eq; exact Es|cbn; lia].
      + rewrite <- Ea. unfold merged_pair. destruct (read_members read_file (an_lgrs a)) as [[gs|]|e] eqn:Er; cbn [bind]; try discriminate.
        destruct (merge_set gs _) as [mg|e]; cbn [bind fst snd]; try discriminate.
        destruct (if String.eqb (an_set_labels a) "" then Ok [] else open_read st (an_set_labels a)) as [sl|e]; cbn [bind]; try discriminate.
        destruct (choose_script (an_script a) gs None) as [s|] eqn:Ec.
        * destruct (write_notes decode index listing render st a (ForSet mg s sl)) as [st' [o|e]]; cbn [snd bind]; discriminate.
        * intro H. injection H as <-. split; [reflexivity|]. split; [apply String.eqb_neq; exact Es|]. exists gs. apply members_read in Er. split; auto.
          split; [|apply choose_none; exact Ec]. assert (Hlen : length gs = length (an_lgrs a)) by (clear - Er; induction Er; cbn; congruence). rewrite Hlen, Ea. cbn. lia.
  Qed.
  (** No other file is ever touched; without the labels nothing is. *)
  Theorem others_kept : forall st a f, f <> an_output a -> dget String.eqb f (fst (tool st a)) = dget String.eqb f st.
  Proof.
    intros st a f Hf. unfold tool, annotate_tool. destruct (process_set read_file schema merge_set true st a) as [[m|p]|e]; try reflexivity.
    assert (Hw : dget String.eqb f (fst (write_notes decode index listing render st a p)) = dget String.eqb f st).
    { destruct (dget String.eqb (an_labels a) st) as [lines|] eqn:El.
      - destruct (string_dec (an_labels a) (an_output a)) as [E|E].
        + destruct (written_in_place st a p lines E El) as [st' [W1 [_ W2]]]. rewrite W1. apply W2. exact Hf.
        + destruct (written st a p lines E El) as [st' [W1 [_ W2]]]. rewrite W1. apply W2. exact Hf.
      - unfold write_notes, open_read. rewrite El. reflexivity. }
    destruct (write_notes decode index listing render st a p) as [st' o]. exact Hw.
  Qed.
  Theorem no_labels : forall st a, dget String.eqb (an_labels a) st = None -> fst (tool st a) = st /\ forall x, snd (tool st a) = Ok x -> x <> None.
  Proof.
    intros st a H. unfold tool, annotate_tool. destruct (process_set read_file schema merge_set true st a) as [[m|p]|e]; cbn [fst snd].
    - split; auto. intros x Hx. injection Hx as <-. discriminate.
    - unfold write_notes, open_read. rewrite H. cbn. split; auto. intros x Hx. discriminate.
    - split; auto. intros x Hx. discriminate.
  Qed.
  (** Annotating a file in place empties it. *)
  Theorem in_place : forall st a f g lines, an_lgrs a = [f] -> passes schema f -> read_file f = Ok (Some g) ->
    an_labels a = an_output a -> dget String.eqb (an_labels a) st = Some lines ->
    exists st', tool st a = (st', Ok None) /\ dget String.eqb (an_labels a) st' = Some [].
  Proof.
    intros st a f g lines Ha Hp Hf He Hl. unfold tool, annotate_tool, process_set. rewrite Ha, (passes_checked f g Hp Hf). cbn [bind].
    destruct (written_in_place st a (ForOne g) lines He Hl) as [st' [W1 [W2 _]]]. rewrite W1. cbn in *. exists st'. split; auto. rewrite He. exact W2.
  Qed.

  (** A member of the set that is no LGR. *)
  Theorem member_unread : forall st a l1 f l2 gs, an_lgrs a = l1 ++ f :: l2 -> (2 <= length (an_lgrs a))%nat -> an_script a <> "" ->
    members read_file l1 gs -> read_file f = Ok None -> tool st a = (st, Raise TypeError).
  Proof.
    intros st a l1 f l2 gs Ha Hl Hs Hm Hf. unfold tool, annotate_tool, process_set. apply String.eqb_neq in Hs.
    assert (Hr : read_members read_file (an_lgrs a) = Ok None).
    { rewrite Ha. clear Ha Hl. induction Hm as [|x g xs gs H1 H2 IH]; cbn [app read_members]; [rewrite Hf; reflexivity|]. rewrite H1. cbn [bind]. rewrite IH. reflexivity. }
    assert (Hp : merged_pair read_file merge_set (an_lgrs a) "" = Raise TypeError) by (unfold merged_pair; rewrite Hr; reflexivity).
    destruct (an_lgrs a) as [|f1 [|f2 fs]]; [cbn in Hl; lia|cbn in Hl; lia|]. rewrite Hs. cbn [negb andb]. rewrite Hp. reflexivity.
  Qed.

  (** ** The merge tool *)
  Variable to_bytes : tool_lgr -> list N.
  Lemma repr_no_line : forall q b, (q = 34 \/ q = 39)%N -> (b < 256)%N -> ~ In 10%N (byte_repr q b).
  Proof.
    intros q b Hq Hb. unfold byte_repr.
    destruct ((b =? 92) || (b =? q))%N%bool eqn:E1.
    { apply orb_true_iff in E1. rewrite !N.eqb_eq in E1. cbn [In]. intros [H|[H|[]]]; [discriminate|]. destruct Hq; destruct E1; subst; discriminate. }
    destruct (b =? 9)%N; [cbn; intuition discriminate|]. destruct (b =? 10)%N eqn:E2; [cbn; intuition discriminate|]. destruct (b =? 13)%N; [cbn; intuition discriminate|].
    destruct ((b <? 32) || (127 <=? b))%N%bool.
    - assert (Hh : forall n, hex_digit n <> 10%N) by (intro n; unfold hex_digit; destruct (n <? 10)%N; lia).
      cbn [In]. intros [H|[H|[H|[H|[]]]]]; try discriminate; exact (Hh _ H).
    - cbn [In]. intros [H|[]]. apply N.eqb_neq in E2. contradiction.
  Qed.
  Theorem merge_prints : forall l name, match merge_tool read_file merge_set to_bytes l name with
    | Ok OnlyOne => length l = 1%nat
    | Ok (Printed_ text) => length l <> 1%nat /\ exists gs m, members read_file l gs /\
        merge_set gs (if String.eqb name "" then "merged-lgr-set" else name) = Ok m /\
        text = bytes_repr (to_bytes m) ++ [10%N] /\ ((forall b, In b (to_bytes m) -> (b < 256)%N) -> quoted text)
    | Raise e => length l <> 1%nat
    end.
  Proof.
    intros l name.
    assert (Hgo : match bind (merged_pair read_file merge_set l name) (fun mg => Ok (Printed_ (bytes_repr (to_bytes (fst mg)) ++ [10%N]))) with
      | Ok OnlyOne => False
      | Ok (Printed_ text) => exists gs m, members read_file l gs /\
        merge_set gs (if String.eqb name "" then "merged-lgr-set" else name) = Ok m /\
        text = bytes_repr (to_bytes m) ++ [10%N] /\ ((forall b, In b (to_bytes m) -> (b < 256)%N) -> quoted text)
      | Raise e => True
      end).
    { unfold merged_pair. destruct (read_members read_file l) as [[gs|]|e] eqn:Er; cbn [bind]; auto.
      destruct (merge_set gs _) as [m|e] eqn:Em; cbn [bind fst]; auto. exists gs, m. apply members_read in Er. split; auto. split; auto. split; auto.
      intro Hb. unfold bytes_repr. set (q := if (memb N.eqb 39 (to_bytes m) && negb (memb N.eqb 34 (to_bytes m)))%bool then 34%N else 39%N).
      assert (Hq : (q = 34 \/ q = 39)%N) by (unfold q; destruct (_ && _)%bool; auto).
      exists q, (flat_map (byte_repr q) (to_bytes m)). split; [cbn [app]; rewrite <- app_assoc; reflexivity|]. split; auto.
      intro H. apply in_flat_map in H. destruct H as [b [H1 H2]]. exact (repr_no_line q b Hq (Hb b H1) H2). }
    unfold merge_tool. destruct l as [|f [|f2 l]]; [| |].
    - destruct (bind _ _) as [[|t]|e]; [contradiction| |]; cbn; auto.
    - reflexivity.
    - destruct (bind _ _) as [[|t]|e]; [contradiction|split; [cbn; lia|exact Hgo]|cbn; lia].
  Qed.
  (** So the document is not on the output. *)
  Theorem merge_no_document : forall l name text m gs, members read_file l gs ->
    merge_set gs (if String.eqb name "" then "merged-lgr-set" else name) = Ok m ->
    merge_tool read_file merge_set to_bytes l name = Ok (Printed_ text) ->
    forall rest, to_bytes m = 60%N :: rest -> forall more, text <> to_bytes m ++ more.
  Proof.
    intros l name text m gs Hm Hg Ht rest Hb more E. pose proof (merge_prints l name) as H. rewrite Ht in H. destruct H as [_ [gs' [m' [H1 [H2 [H3 _]]]]]].
    assert (gs' = gs) by (apply members_read in H1; apply members_read in Hm; congruence). subst gs'. assert (m' = m) by congruence. subst m'.
    rewrite H3, Hb in E. discriminate.
  Qed.
End Tools.
