(** Two complete relations on code points and their joins at the code points of both. *)
From Verif Require Import Base BaseFacts.
Open Scope list_scope.

(** At [c], which both have, [Q] relates [x] and [P] does not. *)
Definition adds (HP HQ : cps -> Prop) (P Q : cps -> cps -> Prop) (c x : cps) : Prop := HP c /\ HQ c /\ Q c x /\ ~ P c x /\ x <> c.
Definition meet (HP HQ : cps -> Prop) (P Q : cps -> cps -> Prop) (c a b : cps) : Prop :=
  adds HP HQ P Q c a /\ adds HQ HP Q P c b \/ adds HP HQ P Q c b /\ adds HQ HP Q P c a.
Definition joined_by (HP HQ : cps -> Prop) (P Q : cps -> cps -> Prop) (a b : cps) : Prop := P a b \/ Q a b \/ exists c, meet HP HQ P Q c a b.
Definition fit_one (HP HQ : cps -> Prop) (P Q : cps -> cps -> Prop) : Prop :=
  forall c d x z, c <> d -> P c d -> ~ Q c d -> adds HP HQ P Q c x -> adds HP HQ P Q d z -> False.
Definition fit_both (HP HQ : cps -> Prop) (P Q : cps -> cps -> Prop) : Prop :=
  forall c d x y, c <> d -> P c d -> Q c d -> adds HP HQ P Q c x -> adds HQ HP Q P c y -> False.
Definition once (HP HQ : cps -> Prop) (P Q : cps -> cps -> Prop) : Prop := forall c d a b, meet HP HQ P Q c a b -> meet HP HQ P Q d a b -> d = c.
Definition full_rel (H : cps -> Prop) (P : cps -> cps -> Prop) : Prop :=
  (forall a b, P a b -> P b a) /\ (forall a b c, P a b -> P b c -> c <> a -> P a c) /\ (forall a b, P a b -> H a /\ H b) /\ (forall a b, P a b \/ ~ P a b).

Lemma meet_swap : forall HP HQ P Q c a b, meet HP HQ P Q c a b -> meet HQ HP Q P c a b.
Proof. unfold meet. tauto. Qed.
Lemma meet_comm : forall HP HQ P Q c a b, meet HP HQ P Q c a b -> meet HP HQ P Q c b a.
Proof. unfold meet. tauto. Qed.
Lemma joined_swap : forall HP HQ P Q a b, joined_by HP HQ P Q a b -> joined_by HQ HP Q P a b.
Proof. unfold joined_by. intros HP HQ P Q a b [X|[X|[c X]]]; [auto|auto|]. right. right. exists c. apply meet_swap. exact X. Qed.
Lemma once_swap : forall HP HQ P Q, once HP HQ P Q -> once HQ HP Q P.
Proof. intros HP HQ P Q H c d a b X Y. apply (H c d a b); apply meet_swap; assumption. Qed.
Lemma both_swap : forall HP HQ P Q, fit_both HP HQ P Q -> fit_both HQ HP Q P.
Proof. intros HP HQ P Q H c d x y N X Y A B. exact (H c d y x N Y X B A). Qed.

(** ** A step *)
Lemma step_half : forall HP HQ P Q, full_rel HP P -> full_rel HQ Q -> fit_one HP HQ P Q -> fit_one HQ HP Q P ->
  forall a b d, P a b -> joined_by HP HQ P Q b d -> a <> d -> joined_by HP HQ P Q a d.
Proof.
  intros HP HQ P Q [Ps [Pt [Pi Pd]]] [Qs [Qt [Qi Qd]]] F1 F2 a b d S T N. destruct (cps_eq_dec a b) as [->|Nab]; [exact T|].
  destruct T as [T|[T|[c [[[X1 [X2 [X3 [X4 X5]]]] [_ [_ [Y3 [Y4 Y5]]]]]|[[X1 [X2 [X3 [X4 X5]]]] [_ [_ [Y3 [Y4 Y5]]]]]]]]].
  - left. eapply Pt; eauto.
  - destruct (cps_eq_dec b d) as [<-|Nbd]; [left; exact S|]. destruct (Pd b d) as [D|D]; [left; eapply Pt; eauto|]. destruct (Qd b a) as [E|E]; [right; left; apply (Qt a b d); auto|].
    right. right. exists b. right. destruct (Pi _ _ S). destruct (Qi _ _ T). split; repeat split; auto.
  - (* Q c b, P c d *)
    destruct (Pi _ _ S) as [_ Hb]. destruct (Qi _ _ X3) as [_ Gb]. assert (Nac : a <> c) by (intros ->; exact (X4 S)).
    assert (E : Q b a).
    { destruct (Qd b a) as [E|E]; [exact E|]. exfalso. apply (F2 c b d a); auto; repeat split; auto. }
    right. right. exists c. left. split; repeat split; auto.
    + apply (Qt c b a); auto.
    + intro Z. apply X4. apply (Pt c a b); auto.
  - (* Q c d, P c b *)
    destruct (cps_eq_dec a c) as [->|Nac]; [right; left; exact X3|]. destruct (Qd c a) as [E|E]; [right; left; apply (Qt a c d); auto|].
    right. right. exists c. right. split; repeat split; auto. apply (Pt c b a); auto.
Qed.
Lemma fit_once : forall HP HQ P Q, full_rel HP P -> full_rel HQ Q -> fit_one HP HQ P Q -> fit_one HQ HP Q P -> fit_both HP HQ P Q -> once HP HQ P Q.
Proof.
  intros HP HQ P Q RP RQ F1 F2 F3.
  assert (K : forall c d a b, adds HP HQ P Q c a -> adds HQ HP Q P c b -> meet HP HQ P Q d a b -> d = c).
  { destruct RP as [Ps [Pt [Pi Pd]]]. destruct RQ as [Qs [Qt [Qi Qd]]]. intros c d a b A B M. destruct (cps_eq_dec d c) as [|N]; [assumption|]. exfalso.
    pose proof A as [A1 [A2 [A3 [A4 A5]]]]. pose proof B as [_ [_ [B3 [B4 B5]]]].
    destruct M as [[[C1 [C2 [C3 [C4 C5]]]] [_ [_ [D3 [D4 D5]]]]]|[[C1 [C2 [C3 [C4 C5]]]] [_ [_ [D3 [D4 D5]]]]]].
    - apply (F3 c d a b); auto; [apply (Pt c b d); auto|apply (Qt c a d); auto].
    - destruct (Pi _ _ B3). destruct (Qi _ _ C3). apply (F1 c b a d); auto. repeat split; auto. }
  intros c d a b M M'. destruct M as [[A B]|[A B]]; [exact (K c d a b A B M')|exact (K c d b a A B (meet_comm _ _ _ _ _ _ _ M'))].
Qed.

(** ** Nothing less *)
Lemma both_needed : forall HP HQ P Q, full_rel HP P -> full_rel HQ Q -> once HP HQ P Q -> fit_both HP HQ P Q.
Proof.
  intros HP HQ P Q [Ps [Pt [Pi Pd]]] [Qs [Qt [Qi Qd]]] O c d x y N X Y A B. pose proof A as [A1 [A2 [A3 [A4 A5]]]]. pose proof B as [_ [_ [B3 [B4 B5]]]].
  assert (Nx : x <> d) by congruence. assert (Ny : y <> d) by congruence. destruct (Pi _ _ X). destruct (Qi _ _ Y).
  assert (E : d = c); [|congruence]. apply (O c d x y); [left; split; assumption|]. left. split; repeat split; auto.
  - apply (Qt d c x); auto.
  - intro Z. apply A4. apply (Pt c d x); auto.
  - apply (Pt d c y); auto.
  - intro Z. apply B4. apply (Qt c d y); auto.
Qed.
Lemma square_stops : forall HP HQ P Q, full_rel HP P -> full_rel HQ Q -> once HP HQ P Q ->
  forall c d x z, c <> d -> P c d -> ~ Q c d -> adds HP HQ P Q c x -> adds HP HQ P Q d z -> P x z -> False.
Proof.
  intros HP HQ P Q [Ps [Pt [Pi Pd]]] [Qs [Qt [Qi Qd]]] O c d x z N X Y A B Z. pose proof A as [A1 [A2 [A3 [A4 A5]]]]. pose proof B as [B1 [B2 [B3 [B4 B5]]]].
  assert (Ncz : z <> c) by (intros ->; apply B4; apply Ps; exact X). destruct (Pi _ _ Z) as [_ Hz]. destruct (Qi _ _ B3) as [_ Gz].
  assert (Nxd : x <> d) by congruence.
  assert (Nq : ~ Q z x).
  { intro W. apply Y. assert (V : Q c z) by (apply (Qt c x z); auto). apply (Qt c z d); auto. }
  assert (Nxz : x <> z) by (intros ->; apply Y; apply (Qt c z d); auto).
  assert (E : z = c); [|congruence]. apply (O c z x d).
  - left. split; repeat split; auto.
  - right. split; repeat split; auto; intro W; try (apply B4; apply Ps; exact W); try (apply Nq; exact W).
Qed.
Lemma one_needed : forall HP HQ P Q, full_rel HP P -> full_rel HQ Q -> once HP HQ P Q ->
  (forall a b d, joined_by HP HQ P Q a b -> joined_by HP HQ P Q b d -> d <> a -> joined_by HP HQ P Q a d) -> fit_one HP HQ P Q.
Proof.
  intros HP HQ P Q RP RQ O T c d x z N X Y A B. pose proof (square_stops HP HQ P Q RP RQ O) as Sq.
  destruct RP as [Ps [Pt [Pi Pd]]]. destruct RQ as [Qs [Qt [Qi Qd]]]. pose proof A as [A1 [A2 [A3 [A4 A5]]]]. pose proof B as [B1 [B2 [B3 [B4 B5]]]].
  assert (Nxd : x <> d) by congruence. assert (Ncz : z <> c) by (intros ->; apply B4; apply Ps; exact X).
  assert (Nxz : x <> z) by (intros ->; apply Y; apply (Qt c z d); auto).
  assert (J : joined_by HP HQ P Q x z).
  { apply (T x d z); [apply (T x c d)| |auto]; [right; left; apply Qs; exact A3|left; exact X|auto|right; left; exact B3]. }
  destruct J as [J|[J|[e [[[C1 [C2 [C3 [C4 C5]]]] [_ [_ [D3 [D4 D5]]]]]|[[C1 [C2 [C3 [C4 C5]]]] [_ [_ [D3 [D4 D5]]]]]]]]].
  - exact (Sq c d x z N X Y A B J).
  - apply Y. assert (V : Q c z) by (apply (Qt c x z); auto). apply (Qt c z d); auto.
  - assert (Nec : e <> c) by (intros ->; apply B4; apply (Pt d c z); auto).
    apply (Sq c d e z N X Y); [|exact B|exact D3]. repeat split; auto; [apply (Qt c x e); auto|].
    intro W. apply B4. assert (V : P c z) by (apply (Pt c e z); auto). apply (Pt d c z); auto.
  - assert (Ned : e <> d) by (intros ->; apply A4; apply (Pt c d x); auto).
    apply (Sq c d x e N X Y A); [|apply Ps; exact D3]. repeat split; auto; [apply (Qt d z e); auto|].
    intro W. apply A4. assert (V : P d x) by (apply (Pt d e x); auto). apply (Pt c d x); auto.
Qed.
