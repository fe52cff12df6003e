(** Samples for the tools that print tables as documents, and for tolerant
    reading. *)
From Verif Require Import Base BaseFacts UtilsModel CharModel RepSpec RefModel LgrModel LgrSpec LgrProofs MetaModel MetaSpec Rfc7940Model AnnotateModel AnnotateSpec SerialModel SerialSpec
  SerialWitness TableModel TableSpec TableScan Table3743 TableDoc TableWitness DumpModel DumpSpec DumpProofs DumpIdna.
From Verif Require Import RulesXmlModel RulesXmlWitness DocModel DocWitness RfcToolWitness ClassModel.
Open Scope N_scope.
Open Scope string_scope.
Open Scope list_scope.

Lemma ascii_knows : knows_digits ascii_digit.
Proof. split; [reflexivity|]. intros d H. unfold digit in H. unfold ascii_digit. rewrite (proj2 (N.leb_le _ _)), (proj2 (N.leb_le _ _)) by lia. reflexivity. Qed.

(** ** Citations *)
Lemma match_citation : forall s ds t, citation s ds -> ds <> [] -> match_refs (s ++ t) = Some (ds, t).
Proof.
  intros s ds t [[_ ->]|[Hne [Hd ->]]] Hn; [contradiction|]. destruct ds as [|d ds]; [contradiction|]. rewrite join_commas. cbn [app match_refs].
  change (N.eqb 40 40) with true. inversion Hd as [|? ? H1 H2]; subst.
  assert (Hx : is_digit d = true) by (unfold is_digit, digit in *; rewrite andb_true_iff, !N.leb_le; lia).
  rewrite Hx. cbn [andb]. rewrite <- app_assoc. cbn [app]. rewrite match_ref_tail_ok by exact H2. reflexivity.
Qed.
Fixpoint nodupb (l : list N) : bool := match l with [] => true | x :: r => negb (memb N.eqb x r) && nodupb r end.
Lemma nodupb_sound : forall l, nodupb l = true -> NoDup l.
Proof.
  induction l as [|x l IH]; intro H; [constructor|]. cbn [nodupb] in H. apply andb_prop in H. destruct H as [H1 H2]. constructor; [|auto].
  apply negb_true_iff in H1. apply (proj1 (memb_false _ _ N_eqb_iff _ _)) in H1. exact H1.
Qed.
Fixpoint onceb (s : cps) : bool :=
  match match_refs s with Some (ds, _) => nodupb ds | None => true end && match s with [] => true | _ :: r => onceb r end.
Lemma onceb_sound : forall pre s ds post, onceb (pre ++ s ++ post) = true -> citation s ds -> NoDup ds.
Proof.
  induction pre as [|x pre IH]; intros s ds post H Hc.
  - destruct ds as [|d ds]; [constructor|]. apply nodupb_sound. cbn [app] in H.
    pose proof (match_citation s (d :: ds) post Hc ltac:(discriminate)) as M. revert H M. destruct (s ++ post) as [|a t]; intros H M; [discriminate M|].
    cbn [onceb] in H. rewrite M in H. apply andb_prop in H. apply H.
  - cbn [app onceb] in H. apply andb_prop in H. destruct H as [_ H]. eapply IH; eassumption.
Qed.
Lemma cites_once_calc : forall lines, forallb onceb lines = true -> cites_once lines.
Proof. intros lines H line pre s ds post Hl -> Hc. rewrite forallb_forall in H. eapply onceb_sound; [apply H; exact Hl|exact Hc]. Qed.

(** ** RFC 3743 *)
Definition undated_3743 : list cps := [txt "Reference 1 Unicode 3.2 # the standard"; txt "U+4E00(1);U+4E01(1,2); U+4E02,4E03 4E04(1) # row"].
Lemma undated_file : file_3743 TableWitness.plain undated_3743 sample_events [].
Proof.
  change sample_events with ([ERef "1" "Unicode 3.2 " (Some "the standard")] ++ (tl sample_events ++ [])).
  apply (f_line TableWitness.plain _ _ [ERef "1" "Unicode 3.2 " (Some "the standard")] None _ []); [exact sample_ref|].
  apply (f_line TableWitness.plain _ _ (tl sample_events) None [] []); [exact sample_row|constructor].
Qed.
Lemma sample_cites : cites_once sample_3743 /\ cites_once undated_3743.
Proof. split; apply cites_once_calc; vm_compute; reflexivity. Qed.
Lemma sample_comments : forall id value, ~ In (ERef id value (Some "")) sample_events.
Proof. intros id value H. cbn in H. repeat destruct H as [H|H]; try discriminate; contradiction. Qed.
(** What is read from what is written. *)
Definition again (force : bool) (d : res xml_doc) : option (metadata * lgr) * res unit :=
  match d with Ok doc => parse_document every_lang ascii_digit None true force doc | Raise e => (None, Raise e) end.
Definition again_lgr (force : bool) (d : res xml_doc) : lgr := match again force d with (Some (_, g), Ok _) => g | _ => new_lgr None true end.
Lemma undated_again : again_lgr false (dump_3743 TableWitness.plain undated_3743) = again_lgr true (dump_3743 TableWitness.plain undated_3743) /\
  seen_at (again_lgr false (dump_3743 TableWitness.plain undated_3743)) [19968] = Some ([([19969], Some "activated"); ([19970], None); ([19971; 19972], None)], ["1"]).
Proof. split; vm_compute; reflexivity. Qed.
Definition twice_3743 : list cps := [txt "Reference 1 Unicode"; txt "U+4E00(1,1)"].
Lemma twice_refused : snd (again false (dump_3743 TableWitness.plain twice_3743)) = Raise (DuplicateReference [19968]).
Proof. vm_compute. reflexivity. Qed.
Definition empty_3743 : list cps := [txt "Reference 1 Unicode #"; txt "U+4E00(1)"].
Lemma empty_lost : dget String.eqb "1" (rm_refs (lg_refs (st_lgr (fst (parse_3743 TableWitness.plain true false empty_3743))))) = Some (mkRef "Unicode " (Some "")) /\
  dget String.eqb "1" (rm_refs (lg_refs (again_lgr false (dump_3743 TableWitness.plain empty_3743)))) = Some (mkRef "Unicode " None).
Proof. split; vm_compute; reflexivity. Qed.

(** ** The registry *)
Definition rec (c p : string) : idna_record := mkRec (txt c) (txt p).
Definition sample_registry : list idna_record :=
  [rec "0000-002C" "DISALLOWED"; rec "002D" "PVALID"; rec "0061-0063" "PVALID"; rec "00B7" "CONTEXTO"; rec "200C-200D" "CONTEXTJ"; rec "0378" "UNASSIGNED"].
Lemma spans_one : forall c n, forallb is_hex (txt c) = true -> txt c <> [] -> int16 (txt c) = Ok n -> spans (txt c) n n.
Proof. intros c n H1 H2 H3. left. split; [exact H2|]. split; [|reflexivity]. apply hex_value_calc; assumption. Qed.
Lemma spans_two : forall a b f l, forallb is_hex a = true -> forallb is_hex b = true -> a <> [] -> b <> [] -> int16 a = Ok f -> int16 b = Ok l -> f <= l ->
  spans (a ++ 45 :: b) f l.
Proof. intros. right. exists a, b. repeat (split; [first [reflexivity|assumption|apply hex_value_calc; assumption]|]). assumption. Qed.
Lemma registry_spans : spans (txt "002D") 45 45 /\ spans (txt "0061-0063") 97 99 /\ spans (txt "00B7") 183 183 /\ spans (txt "200C-200D") 8204 8205.
Proof.
  split; [apply spans_one; [reflexivity|discriminate|reflexivity]|]. split; [apply (spans_two (txt "0061") (txt "0063")); first [reflexivity|discriminate]|].
  split; [apply spans_one; [reflexivity|discriminate|reflexivity]|]. apply (spans_two (txt "200C") (txt "200D")); first [reflexivity|discriminate].
Qed.
Lemma registry_formed : well_formed sample_registry.
Proof.
  destruct registry_spans as [S1 [S2 [S3 S4]]]. intros r H K. cbn [sample_registry In] in H.
  destruct H as [<-|[<-|[<-|[<-|[<-|[<-|[]]]]]]]; eauto; exfalso; destruct K as [K|[K|K]]; discriminate K.
Qed.

Lemma registry_lists : Forall2 (fun r (b : N * N) => forall x, lists r x <-> fst b <= x <= snd b) sample_registry [(1, 0); (45, 45); (97, 99); (183, 183); (8204, 8205); (1, 0)].
Proof.
  destruct registry_spans as [S1 [S2 [S3 S4]]].
  assert (K : forall c p f l, kept_property (txt p) -> spans (txt c) f l -> forall x, lists (rec c p) x <-> fst (f, l) <= x <= snd (f, l)).
  { intros c p f l Hp Hs x. cbn [fst snd]. split; [intros [_ [f' [l' [Hs' Hx]]]]; cbn [rc_cp rec] in Hs'; destruct (spans_fun _ _ _ _ _ Hs Hs') as [-> ->]; exact Hx|].
    intro Hx. split; [exact Hp|]. exists f, l. auto. }
  assert (Z : forall c p, ~ kept_property (txt p) -> forall x, lists (rec c p) x <-> fst (1, 0) <= x <= snd (1, 0)).
  { intros c p Hp x. cbn [fst snd]. split; [intros [Hk _]; contradiction|lia]. }
  constructor; [apply Z; intros [H|[H|H]]; discriminate H|]. constructor; [apply K; [left; reflexivity|exact S1]|].
  constructor; [apply K; [left; reflexivity|exact S2]|]. constructor; [apply K; [right; left; reflexivity|exact S3]|].
  constructor; [apply K; [right; right; reflexivity|exact S4]|]. constructor; [apply Z; intros [H|[H|H]]; discriminate H|]. constructor.
Qed.
Lemma registry_once : listed_once sample_registry.
Proof.
  pose proof registry_lists as H. repeat match goal with H : Forall2 _ (_ :: _) _ |- _ => inversion H; clear H; subst | H : Forall2 _ _ (_ :: _) |- _ => inversion H; clear H; subst end.
  repeat (constructor; [repeat (constructor; [intros x [A B]; repeat match goal with F : forall x, lists ?r x <-> _, G : lists ?r _ |- _ => apply F in G; cbn [fst snd] in G end; lia|]); constructor|]). constructor.
Qed.
Lemma registry_again : let g := again_lgr false (idna_repertoire sample_registry) in
  map (fun x => match lookup (lg_rep g) [x] with Some _ => true | None => false end) [44; 45; 96; 97; 98; 99; 100; 183; 8203; 8204; 8205; 888] =
  [false; true; false; true; true; true; false; true; false; true; true; false].
Proof. vm_compute. reflexivity. Qed.
Definition overlapping_registry : list idna_record := [rec "0061-0063" "PVALID"; rec "0062" "CONTEXTO"].
Lemma overlapping : well_formed overlapping_registry /\ ~ listed_once overlapping_registry /\ idna_repertoire overlapping_registry = Raise (CharAlreadyExists [98]).
Proof.
  assert (S1 : spans (txt "0061-0063") 97 99) by apply registry_spans.
  assert (S2 : spans (txt "0062") 98 98) by (apply spans_one; [reflexivity|discriminate|reflexivity]).
  split; [|split; [|vm_compute; reflexivity]].
  - intros r [<-|[<-|[]]] _; eauto.
  - intro H. inversion H as [|? ? F _]; subst. inversion F as [|? ? G _]; subst. apply (G 98). split; (split; [|]).
    + left. reflexivity.
    + exists 97, 99. split; [exact S1|lia].
    + right. left. reflexivity.
    + exists 98, 98. split; [exact S2|lia].
Qed.

(** ** Tolerant reading *)
Definition w_undefined : document := w_doc [DChar (txt "0061") (mkAttrs None None None (Some "7") None) []].
Definition w_twice : document := mkDocument (Some (w_meta ++ [MReferencesE [mkRefElem (Some "7") None "seven"]])) [DChar (txt "0061") (mkAttrs None None None (Some "7 7") None) []] None.
Definition strictly (d : document) : res (option loaded) := read_document every_lang ascii_digit None 30 false false d.
Definition tolerantly (d : document) : res (option loaded) := read_document every_lang ascii_digit None 30 false true d.
Lemma undefined_passes : strictly w_undefined = Raise (ReferenceNotDefined "7") /\ w_tool (Some true) true false w_undefined = Ok ("PASS" ++ nl)%string.
Proof. split; vm_compute; reflexivity. Qed.
Lemma twice_kept : strictly w_twice = Raise (DuplicateReference [97]) /\
  exists x ch, tolerantly w_twice = Ok (Some x) /\ lookup (lg_rep (ld_lgr x)) [97] = Some ch /\ ch_refs ch = ["7"; "7"].
Proof. split; [vm_compute; reflexivity|]. eexists _, _. split; [vm_compute; reflexivity|]. split; vm_compute; reflexivity. Qed.
Definition w_dated : document := mkDocument (Some [MDateE (Some (txt "soon"))]) [w_chr "0061" []] None.
Lemma date_kept : strictly w_dated = Raise (LGRFormatException INVALID_DATE_TAG) /\
  exists x, tolerantly w_dated = Ok (Some x) /\ md_date (ld_meta x) = Some (txt "soon").
Proof. split; [vm_compute; reflexivity|]. eexists. split; vm_compute; reflexivity. Qed.
