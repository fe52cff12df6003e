(** Proofs about the review tool. *)
From Coq Require Import Ascii Permutation.
From Verif Require Import Base BaseFacts CharModel RepSpec LgrModel LgrSpec LgrReach LgrProofs ValidateSpec LabelSpec GeneralModel GeneralSpec GeneralProofs WholeModel WholeSpec WholeTotal HarmToolModel HarmToolSpec HarmToolProofs RevToolModel RevToolSpec.
Open Scope string_scope.
Open Scope list_scope.

Lemma get_set : forall (k k' : string) (c : content) d, dget String.eqb k (dset String.eqb k' c d) = if String.eqb k k' then Some c else dget String.eqb k d.
Proof. intros. apply (dget_dset _ string_eqb_iff). Qed.

Section Pairs.
  Variable worlds : idn_table -> world.
  Variable today : cps.
  Notation pair_t := (option read_table * option read_table)%type.
  Definition name_of (p : pair_t) : string := report_name (fst p) (snd p).
  Definition review_of (p : pair_t) : res content := review_pair worlds today (fst p) (snd p).
  Fixpoint each_pair (l : list pair_t) (dir : dict string content) : dict string content * res unit :=
    match l with
    | [] => (dir, Ok tt)
    | p :: l' =>
        match write_review worlds today (fst p) (snd p) dir with
        | (dir', Ok _) => each_pair l' dir'
        | (dir', Raise e) => (dir', Raise e)
        end
    end.
  Lemma each_app : forall l l' dir, each_pair (l ++ l') dir =
    match each_pair l dir with (dir', Ok _) => each_pair l' dir' | (dir', Raise e) => (dir', Raise e) end.
  Proof.
    induction l as [|p l IH]; intros l' dir; [reflexivity|]. cbn [app each_pair]. destruct (write_review _ _ _ _ dir) as [d [u|e]]; [apply IH|reflexivity].
  Qed.
  Lemma against_pairs : forall t refs dir, write_against worlds today t refs dir = each_pair (map (pair t) refs) dir.
  Proof.
    intros t. induction refs as [|r refs IH]; intros dir; [reflexivity|]. cbn [write_against map each_pair fst snd]. destruct (write_review _ _ _ _ dir) as [d [u|e]]; [apply IH|reflexivity].
  Qed.
  Lemma all_pairs : forall tables refs dir, write_all worlds today tables refs dir = each_pair (list_prod tables refs) dir.
  Proof.
    induction tables as [|t tables IH]; intros refs dir; [reflexivity|]. cbn [write_all list_prod]. rewrite each_app, against_pairs.
    destruct (each_pair (map _ refs) dir) as [d [u|e]]; [apply IH|reflexivity].
  Qed.

  (** Whatever happens, a file is as it was, or holds the review of a pair of that
      name, or is empty because the tool stopped there. *)
  Lemma each_sound : forall l dir dir' x, each_pair l dir = (dir', x) -> forall n,
    dget String.eqb n dir' = dget String.eqb n dir \/
    (exists p c, In p l /\ name_of p = n /\ review_of p = Ok c /\ dget String.eqb n dir' = Some c) \/
    (exists p e, In p l /\ name_of p = n /\ review_of p = Raise e /\ x = Raise e /\ dget String.eqb n dir' = Some Empty).
  Proof.
    induction l as [|p l IH]; intros dir dir' x E n; cbn [each_pair] in E; [injection E as <- <-; left; reflexivity|].
    unfold write_review in E. fold (name_of p) in E. fold (review_of p) in E. destruct (review_of p) as [c|e] eqn:R.
    - destruct (IH _ _ _ E n) as [H|[(q & c' & I & H)|(q & e & I & H)]].
      + rewrite H, !get_set. destruct (String.eqb_spec n (name_of p)) as [->|N]; [|left; reflexivity].
        right. left. exists p, c. split; [left; reflexivity|]. auto.
      + right. left. exists q, c'. split; [right; exact I|exact H].
      + right. right. exists q, e. split; [right; exact I|exact H].
    - injection E as <- <-. rewrite get_set. destruct (String.eqb_spec n (name_of p)) as [->|N]; [|left; reflexivity].
      right. right. exists p, e. split; [left; reflexivity|]. auto.
  Qed.
  Lemma each_complete : forall l dir, (forall p, In p l -> exists c, review_of p = Ok c) -> exists dir', each_pair l dir = (dir', Ok tt).
  Proof.
    induction l as [|p l IH]; intros dir H; [eexists; reflexivity|]. cbn [each_pair]. unfold write_review. fold (review_of p).
    destruct (H p (or_introl eq_refl)) as (c & ->). apply IH. intros q I. apply H. right. exact I.
  Qed.
  (** When it completes every pair has been reviewed, the last of each name stays. *)
  Lemma each_ok : forall l dir dir', each_pair l dir = (dir', Ok tt) -> forall p, In p l -> exists q c, In q l /\ name_of q = name_of p /\ review_of q = Ok c /\ dget String.eqb (name_of p) dir' = Some c.
  Proof.
    induction l as [|p l IH]; intros dir dir' E p0 I; [destruct I|]. cbn [each_pair] in E. unfold write_review in E. fold (name_of p) in E. fold (review_of p) in E.
    destruct (review_of p) as [c|e] eqn:R; [|discriminate E].
    assert (K : forall q, In q l -> exists q' c, In q' (p :: l) /\ name_of q' = name_of q /\ review_of q' = Ok c /\ dget String.eqb (name_of q) dir' = Some c).
    { intros q J. destruct (IH _ _ E q J) as (q' & c' & J' & H). exists q', c'. split; [right; exact J'|exact H]. }
    destruct I as [<-|I]; [|exact (K _ I)].
    destruct (each_sound _ _ _ _ E (name_of p)) as [H|[(q & c' & J & H1 & H2 & H3)|(q & e & _ & _ & _ & X & _)]]; [| |discriminate X].
    - exists p, c. split; [left; reflexivity|]. split; [reflexivity|]. split; [exact R|]. rewrite H, !get_set, String.eqb_refl. reflexivity.
    - exists q, c'. split; [right; exact J|]. auto.
  Qed.
  Lemma each_others : forall l dir dir' x, each_pair l dir = (dir', x) -> forall n, (forall p, In p l -> name_of p <> n) -> dget String.eqb n dir' = dget String.eqb n dir.
  Proof.
    intros l dir dir' x E n N. destruct (each_sound _ _ _ _ E n) as [H|[(q & c & I & H & _)|(q & e & I & H & _)]]; [exact H | |]; destruct (N q I H).
  Qed.
  Lemma each_fails : forall l dir dir' e, each_pair l dir = (dir', Raise e) -> exists p, In p l /\ review_of p = Raise e /\ dget String.eqb (name_of p) dir' = Some Empty /\
    forall n, n <> name_of p -> dget String.eqb n dir' = dget String.eqb n dir \/ exists q c, In q l /\ name_of q = n /\ review_of q = Ok c /\ dget String.eqb n dir' = Some c.
  Proof.
    induction l as [|p l IH]; intros dir dir' e E; [discriminate E|]. cbn [each_pair] in E. unfold write_review in E. fold (name_of p) in E. fold (review_of p) in E.
    destruct (review_of p) as [c|e'] eqn:R.
    - destruct (IH _ _ _ E) as (q & I & H1 & H2 & H3). exists q. split; [right; exact I|]. split; [exact H1|]. split; [exact H2|]. intros n N.
      destruct (H3 n N) as [H|(q' & c' & J & H)]; [|right; exists q', c'; split; [right; exact J|exact H]]. rewrite H, !get_set. destruct (String.eqb_spec n (name_of p)) as [->|M]; [|left; reflexivity].
      right. exists p, c. split; [left; reflexivity|]. auto.
    - injection E as <- <-. exists p. split; [left; reflexivity|]. split; [exact R|]. split; [rewrite get_set, String.eqb_refl; reflexivity|]. intros n N. left. rewrite get_set.
      destruct (String.eqb_spec n (name_of p)) as [->|M]; [destruct (N eq_refl)|reflexivity].
  Qed.
End Pairs.

Section Files.
  Variable worlds : idn_table -> world.
  Variable today : cps.
  Variable order : list string -> list string.
  Hypothesis Ord : forall l, Permutation (order l) l.
  Variable read : string -> res (option (option cps * idn_table)).

  Lemma order_in : forall paths p, In p (order (dedup String.eqb paths)) <-> In p paths.
  Proof.
    intros paths p. rewrite <- (dedup_In _ _ string_eqb_iff paths p). split; apply Permutation_in; [apply Ord|apply Permutation_sym, Ord].
  Qed.
  Lemma files_spec : forall paths l sk, parse_files read paths = Ok (l, sk) ->
    (forall o, In o l <-> exists p, In p paths /\ parse_file read p = Ok o) /\
    (forall p, In p sk <-> In p paths /\ parse_file read p = Ok None) /\ forall p, In p paths -> exists o, parse_file read p = Ok o.
  Proof.
    induction paths as [|p paths IH]; intros l sk E; cbn [parse_files] in E.
    - injection E as <- <-. split; [|split].
      + intros o. split; [intros []|]. intros (p & [] & _).
      + intros p. split; [intros []|]. intros [[] _].
      + intros p [].
    - destruct (parse_file read p) as [o|e] eqn:P; [|discriminate E]. cbn [bind] in E. destruct (parse_files read paths) as [[l' sk']|e] eqn:F; [|discriminate E].
      cbn [bind fst snd] in E. destruct (IH _ _ eq_refl) as (A & B & C). injection E as <- <-. split; [|split].
      + intros o'. cbn [In]. rewrite A. split.
        * intros [<-|(q & I & H)]; [exists p; auto|exists q; auto].
        * intros (q & [<-|I] & H); [left; congruence|right; exists q; auto].
      + intros q. cbn [In]. destruct o as [x|].
        * rewrite B. split; [intros [I H]; auto|]. intros [[<-|I] H]; [congruence|auto].
        * cbn [In]. rewrite B. split; [intros [<-|[I H]]; auto|]. intros [[<-|I] H]; auto.
      + intros q [<-|I]; [eauto|]. exact (C q I).
  Qed.
  Lemma files_total : forall paths, (forall p, In p paths -> exists o, parse_file read p = Ok o) -> exists l sk, parse_files read paths = Ok (l, sk).
  Proof.
    induction paths as [|p paths IH]; intros H; [eexists; eexists; reflexivity|]. cbn [parse_files]. destruct (H p (or_introl eq_refl)) as (o & ->). cbn [bind].
    destruct IH as (l & sk & ->); [intros q I; apply H; right; exact I|]. cbn [bind]. eexists. eexists. reflexivity.
  Qed.
  Lemma set_spec : forall paths l sk, parse_set order read paths = Ok (l, sk) ->
    (forall o, In o l <-> exists p, In p paths /\ parse_file read p = Ok o) /\
    (forall p, In p sk <-> In p paths /\ parse_file read p = Ok None) /\ forall p, In p paths -> exists o, parse_file read p = Ok o.
  Proof.
    intros paths l sk E. destruct (files_spec _ _ _ E) as (A & B & C). split; [|split].
    - intros o. rewrite A. split; intros (p & I & H); exists p; (split; [apply order_in; exact I|exact H]).
    - intros p. rewrite B. rewrite order_in. reflexivity.
    - intros p I. apply C, order_in, I.
  Qed.
  Lemma set_total : forall paths, (forall p, In p paths -> exists o, parse_file read p = Ok o) -> exists l sk, parse_set order read paths = Ok (l, sk).
  Proof. intros paths H. apply files_total. intros p I. apply H, order_in, I. Qed.

  Lemma file_parsed : forall p v x, read p = Ok (Some (v, x)) <-> parse_file read p = Ok (Some (mkRead (base_name p) v x)).
  Proof.
    intros p v x. unfold parse_file. split; [intros ->; reflexivity|]. destruct (read p) as [[[v' x']|]|e]; cbn; intros E; try discriminate E. injection E as -> ->. reflexivity.
  Qed.
  Lemma parsed_file : forall p y, parse_file read p = Ok (Some y) -> exists v x, read p = Ok (Some (v, x)) /\ y = mkRead (base_name p) v x.
  Proof.
    intros p y. unfold parse_file. destruct (read p) as [[[v' x']|]|e]; cbn; intros E; try discriminate E. injection E as <-. exists v', x'. auto.
  Qed.
  Lemma named : forall t r f, report_of t r f <-> f = (base_name t ++ "_" ++ base_name r ++ ".json")%string.
  Proof.
    intros t r f. split.
    - intros (a & b & A & B & ->). apply base_file in A. apply base_file in B. subst. reflexivity.
    - intros ->. exists (base_name t), (base_name r). split; [apply base_file; reflexivity|]. split; [apply base_file; reflexivity|reflexivity].
  Qed.
  Lemma base_of : forall p, file_name p (base_name p).
  Proof. intros p. apply base_file. reflexivity. Qed.

  (** The tool as a walk over the pairs that were read. *)
  Lemma tool_walk : forall tables refs dir dir' x, review_tool worlds today order read tables refs dir = (dir', x) ->
    (dir' = dir /\ (exists e, x = Raise e) /\ exists p e, In p (refs ++ tables) /\ read p = Raise e) \/
    exists l y skipped, each_pair worlds today l dir = (dir', y) /\ x = bind y (fun _ => Ok skipped) /\
      (forall t r, In (t, r) l <-> exists pt pr, In pt tables /\ In pr refs /\ parse_file read pt = Ok t /\ parse_file read pr = Ok r) /\
      (forall p, In p skipped <-> In p (refs ++ tables) /\ read p = Ok None).
  Proof.
    intros tables refs dir dir' x E. unfold review_tool in E.
    assert (Bad : forall paths e, parse_set order read paths = Raise e -> exists p e', In p paths /\ read p = Raise e').
    { intros paths e H. unfold parse_set in H. assert (K : forall q, parse_files read q = Raise e -> exists p e', In p q /\ read p = Raise e').
      { induction q as [|p q IH]; intros X; [discriminate X|]. cbn [parse_files] in X. destruct (parse_file read p) as [o|e'] eqn:P.
        - cbn [bind] in X. destruct (parse_files read q) as [[l sk]|e'']; [discriminate X|]. cbn [bind] in X. destruct IH as (p' & e' & I & Hx); [congruence|]. exists p', e'. split; [right; exact I|exact Hx].
        - exists p. unfold parse_file in P. destruct (read p) as [o|e'']; [discriminate P|]. exists e''. split; [left; reflexivity|reflexivity]. }
      destruct (K _ H) as (p & e' & I & Hx). exists p, e'. split; [apply order_in; exact I|exact Hx]. }
    destruct (parse_set order read refs) as [[rl rsk]|e] eqn:R; cbn [bind] in E.
    2:{ injection E as <- <-. left. split; [reflexivity|]. split; [eauto|]. destruct (Bad _ _ R) as (p & e' & I & H). exists p, e'. split; [apply in_or_app; left; exact I|exact H]. }
    destruct (parse_set order read tables) as [[tl tsk]|e] eqn:T; cbn [bind] in E.
    2:{ injection E as <- <-. left. split; [reflexivity|]. split; [eauto|]. destruct (Bad _ _ T) as (p & e' & I & H). exists p, e'. split; [apply in_or_app; right; exact I|exact H]. }
    destruct (set_spec _ _ _ R) as (R1 & R2 & _). destruct (set_spec _ _ _ T) as (T1 & T2 & _).
    assert (None_ : forall p, parse_file read p = Ok None <-> read p = Ok None).
    { intros p. unfold parse_file. destruct (read p) as [[q|]|e]; cbn; split; intro; congruence. }
    rewrite all_pairs in E. right. exists (list_prod tl rl). destruct (each_pair worlds today (list_prod tl rl) dir) as [d [[]|e]] eqn:Q; injection E as <- <-.
    all: eexists; exists (rsk ++ tsk); split; [reflexivity|]; split; [reflexivity|]; split.
    1,3: intros t r; rewrite in_prod_iff, T1, R1; split; [intros [(pt & A & B) (pr & C & D)]; exists pt, pr; auto|intros (pt & pr & A & B & C & D); split; [exists pt|exists pr]; auto].
    all: intros p; rewrite !in_app_iff, R2, T2, None_; clear; tauto.
  Qed.
End Files.
