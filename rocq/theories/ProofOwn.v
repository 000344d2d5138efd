(** Ownership of sockets and TLS objects over histories. *)

From Coq Require Import Ascii String List NArith ZArith Bool Lia ZifyBool ZifyNat ZifyN.
From Verif Require Import Base Lib ModelUtil ModelBase64 ModelAddress ModelAttachment
  ModelErrors ModelReply ModelMessage ModelState ModelClient ModelWorld
  ProofSteps ProofWalk ProofPhases ProofEstablish ProofLog ProofSend ProofWorld SpecOwn.
Import ListNotations.
Open Scope Z_scope.

Section Own.
Variable R : resource.

Lemma open_snoc : forall t ev, open_in R (t ++ [ev]) = open_after R (open_in R t) ev.
Proof. intros. unfold open_in. rewrite fold_left_app. reflexivity. Qed.

Lemma in_open_after : forall o ev x, In x (open_after R o ev) <->
  In x (acquires R ev) \/ (In x o /\ ~ In x (releases R ev)).
Proof.
  intros. unfold open_after. rewrite in_app_iff, filter_In.
  assert (E : existsb (Z.eqb x) (releases R ev) = true <-> In x (releases R ev)).
  { rewrite existsb_exists. split.
    - intros (y & H & E). apply Z.eqb_eq in E. subst. exact H.
    - intros H. exists x. split; [exact H|apply Z.eqb_refl]. }
  destruct (existsb (Z.eqb x) (releases R ev)); simpl; intuition congruence.
Qed.

Definition quiet (ev : event) : Prop := acquires R ev = [] /\ releases R ev = [].

Lemma open_quiet : forall t ev, quiet ev -> forall x, In x (open_in R (t ++ [ev])) <-> In x (open_in R t).
Proof.
  intros t ev [A B] x. rewrite open_snoc, in_open_after, A, B. simpl. tauto.
Qed.

Lemma fresh_prefix : forall t t', fresh R (t ++ t') -> fresh R t.
Proof.
  intros t t' H t1 ev t2 x E. apply (H t1 ev (t2 ++ t')). rewrite E, <- app_assoc. reflexivity.
Qed.

Lemma releases_snoc : forall t ev, releases_open R t ->
  (forall x, In x (releases R ev) -> In x (open_in R t)) -> releases_open R (t ++ [ev]).
Proof.
  intros t ev H He t1 ev' t2 x E Hx.
  destruct (exists_last (l := ev' :: t2)) as (l & z & E2); [discriminate|].
  rewrite E2, app_assoc in E. apply app_inj_tail in E as [E <-].
  destruct t2 as [|y t2].
  - destruct l; [|destruct l; discriminate E2]. inversion E2; subst. rewrite app_nil_r in *. auto.
  - destruct l as [|y' l]; [discriminate E2|]. inversion E2; subst. eapply H; eauto.
Qed.

(** The state of one client, while the resources [O] belong to others. *)
Definition J (O : list Z) (s : st) : Prop :=
  (forall x, In x O -> In x (open_in R (s_t s))) /\
  (forall x, In x (refers R (s_c s)) -> In x (open_in R (s_t s)) /\ ~ In x O) /\
  releases_open R (s_t s).

Lemma J_client : forall O c c' e e' t, (forall x, In x (refers R c') -> In x (refers R c)) ->
  J O (mkSt c e t) -> J O (mkSt c' e' t).
Proof. unfold J; simpl. intros O c c' e e' t H (A & B & C). firstorder. Qed.

Lemma J_quiet : forall O c e t ev, quiet ev -> J O (mkSt c e t) -> J O (mkSt c e (t ++ [ev])).
Proof.
  unfold J; simpl. intros O c e t ev Q (A & B & C). repeat split.
  - intros x H. apply open_quiet; auto.
  - apply open_quiet; auto. apply B; assumption.
  - apply B; assumption.
  - apply releases_snoc; [exact C|]. destruct Q as [_ Q]. rewrite Q. intros x [].
Qed.

(** Releasing what the client refers to. *)
Lemma J_release : forall O c c' e e' t ev,
  acquires R ev = [] -> (forall x, In x (releases R ev) -> In x (refers R c)) ->
  (forall x, In x (refers R c') -> In x (refers R c) /\ ~ In x (releases R ev)) ->
  J O (mkSt c e t) -> J O (mkSt c' e' (t ++ [ev])).
Proof.
  unfold J; simpl. intros O c c' e e' t ev Qa Qr Qc (A & B & C). repeat split.
  - intros x H. rewrite open_snoc, in_open_after. right. split; [auto|]. intros X.
    apply Qr in X. apply (B x X). exact H.
  - rewrite open_snoc, in_open_after. right. apply Qc in H as [H1 H2]. split; [apply B; exact H1|exact H2].
  - apply Qc in H as [H1 _]. apply B; exact H1.
  - apply releases_snoc; [exact C|]. intros x X. apply B. auto.
Qed.

(** Acquiring something new. *)
Lemma J_acquire : forall O c c' e e' t ev,
  fresh R (t ++ [ev]) -> releases R ev = [] ->
  (forall x, In x (refers R c') -> In x (acquires R ev) \/ In x (refers R c)) ->
  J O (mkSt c e t) -> J O (mkSt c' e' (t ++ [ev])).
Proof.
  unfold J; simpl. intros O c c' e e' t ev F Qr Qc (A & B & C). repeat split.
  - intros x H. rewrite open_snoc, in_open_after, Qr. right. simpl. split; [auto|tauto].
  - rewrite open_snoc, in_open_after, Qr. apply Qc in H as [H|H]; [auto|]. right. split; [apply B; exact H|simpl; tauto].
  - intros X. apply Qc in H as [H|H]; [|apply (B x H); exact X].
    apply (F t ev [] x); auto.
  - apply releases_snoc; [exact C|]. rewrite Qr. intros x [].
Qed.

(** Every elementary step keeps the invariant. *)
Definition kept_by_steps : Prop := forall O l s s', estep l s s' -> fresh R (s_t s') -> J O s -> J O s'.

Hypothesis K : kept_by_steps.

Lemma steps_J : forall P O s s', steps P s s' -> fresh R (s_t s') -> J O s -> J O s'.
Proof.
  intros P O s s' S. induction S as [|l s1 s2 s3 E H S IH]; intros F Hj; [exact Hj|].
  apply IH; [exact F|]. eapply K; eauto.
  destruct (steps_trace _ _ _ S) as [t T]. rewrite T in F. eapply fresh_prefix; eauto.
Qed.

(** ** Worlds *)

Definition refers' (o : option client) : list Z := match o with Some c => refers R c | None => [] end.
Definition held (l : list (option client)) : list Z := flat_map refers' l.

Definition G (w : world) : Prop :=
  NoDup (held (w_clients w)) /\ (forall x, In x (held (w_clients w)) -> In x (open_in R (w_trace w))) /\
  releases_open R (w_trace w).

Lemma nth_split' : forall {A} (l : list A) i x, nth_error l i = Some x ->
  exists l1 l2, l = l1 ++ x :: l2 /\ length l1 = i /\ forall v, list_set l i v = l1 ++ v :: l2.
Proof.
  induction l as [|y l IH]; intros [|i] x H; try discriminate H.
  - inversion H; subst. exists [], l. auto.
  - simpl in H. apply IH in H as (l1 & l2 & -> & <- & X). exists (y :: l1), l2. repeat split.
    intros v. simpl. rewrite X. reflexivity.
Qed.

Lemma get_split : forall w i c, get_client w i = Some c ->
  exists l1 l2, w_clients w = l1 ++ Some c :: l2 /\ length l1 = i /\
    forall v, list_set (w_clients w) i v = l1 ++ v :: l2.
Proof.
  intros w i c H. unfold get_client in H. destruct (nth_error (w_clients w) i) as [[d|]|] eqn:E; try discriminate H.
  inversion H; subst. apply nth_split'. exact E.
Qed.

Lemma held_app : forall a b, held (a ++ b) = held a ++ held b.
Proof. intros. apply flat_map_app. Qed.

Lemma NoDup_mid : forall (a b c : list Z), NoDup (a ++ b ++ c) <->
  NoDup b /\ NoDup (a ++ c) /\ forall x, In x b -> ~ In x (a ++ c).
Proof.
  intros a b c. split.
  - intros H. induction b as [|y b IH]; simpl in *.
    + repeat split; [constructor|exact H|intros x []].
    + apply NoDup_remove in H as [H1 H2]. destruct (IH H1) as (B1 & B2 & B3). repeat split.
      * constructor; [|exact B1]. intros X. apply H2. rewrite !in_app_iff. auto.
      * exact B2.
      * intros x [->|X]; [|auto]. intros Y. apply H2. rewrite !in_app_iff in *. tauto.
  - intros (H1 & H2 & H3). induction b as [|y b IH]; simpl in *; [exact H2|].
    inversion H1; subst.
    assert (X : NoDup (y :: a ++ b ++ c)).
    { constructor.
      - intros X. rewrite !in_app_iff in X. destruct X as [X|[X|X]].
        + apply (H3 y); [auto|]. apply in_app_iff; auto.
        + contradiction.
        + apply (H3 y); [auto|]. apply in_app_iff; auto.
      - apply IH; auto. }
    apply (NoDup_Add (a := y) (l := a ++ b ++ c)) ; [|split; inversion X; assumption].
    apply Add_app.
Qed.

(** One client runs a member function. *)
Lemma G_run_on : forall {A} i (m : M A) f w x w' P,
  (forall c, NoDup (refers R c)) ->
  (forall c, (forall y, In y (refers' (f c)) -> In y (refers R c)) /\ NoDup (refers' (f c))) ->
  (forall s, walk P m s) -> run_on i m f w = (x, w') -> fresh R (w_trace w') -> G w -> G w'.
Proof.
  intros A i m f w x w' P N Hf W H F (G1 & G2 & G3). unfold run_on in H.
  destruct (get_client w i) as [c|] eqn:E; [|inversion H; subst; repeat split; assumption].
  apply get_split in E as (l1 & l2 & El & _ & Es).
  assert (W' := W (mkSt c (w_env w) (w_trace w))). destruct W' as [W' _].
  destruct (m (mkSt c (w_env w) (w_trace w))) as [o s] eqn:Em. inversion H; subst. simpl in W'.
  assert (X : J (held l1 ++ held l2) (mkSt c (w_env w) (w_trace w))).
  { rewrite El, held_app in G1, G2. simpl in G1, G2. apply NoDup_mid in G1 as (N1 & N2 & N3).
    unfold J; simpl. repeat split; [| | |exact G3].
    - intros y Y. apply G2. unfold held in *. rewrite !in_app_iff in *. tauto.
    - apply G2. rewrite !in_app_iff. tauto.
    - apply N3. exact H0. }
  apply (steps_J _ _ _ _ W' F) in X as (X1 & X2 & X3). unfold G. simpl. rewrite Es, held_app. simpl.
  destruct (Hf (s_c s)) as [Hf1 Hf2].
  rewrite El, held_app in G1. simpl in G1. apply NoDup_mid in G1 as (N1 & N2 & N3).
  split; [|split; [|exact X3]].
  - apply NoDup_mid. repeat split; [exact Hf2|exact N2|].
    intros y Y. apply X2. auto.
  - intros y Y. rewrite !in_app_iff in Y. destruct Y as [Y|[Y|Y]].
    + apply X1. apply in_app_iff; auto.
    + apply X2. auto.
    + apply X1. apply in_app_iff; auto.
Qed.

Lemma G_sub : forall w w', NoDup (held (w_clients w')) ->
  (forall x, In x (held (w_clients w')) -> In x (held (w_clients w))) -> w_trace w' = w_trace w -> G w -> G w'.
Proof. unfold G. intros w w' N H E (A & B & C). rewrite E. repeat split; auto. Qed.

Lemma held_push : forall w c, held (w_clients (push_client c w)) = held (w_clients w) ++ refers R c.
Proof. intros. simpl. rewrite held_app. simpl. rewrite app_nil_r. reflexivity. Qed.

(** Replacing a client by one that refers to less. *)
Lemma G_put : forall w i c c', get_client w i = Some c -> NoDup (refers' c') ->
  (forall x, In x (refers' c') -> In x (refers R c)) -> G w -> G (put_client i c' w).
Proof.
  intros w i c c' E N H g. apply (G_sub w); [| |reflexivity|exact g]; destruct g as (G1 & G2 & G3);
    apply get_split in E as (l1 & l2 & El & _ & Es); simpl; rewrite Es, held_app; simpl.
  - rewrite El, held_app in G1. simpl in G1. apply NoDup_mid in G1 as (N1 & N2 & N3).
    apply NoDup_mid. repeat split; auto.
  - intros x X. rewrite El, held_app. simpl. rewrite !in_app_iff in *. intuition.
Qed.

Hypothesis N1 : forall c, NoDup (refers R c).
Hypothesis Hnew : forall k p n c, client_new k p n = Done c -> refers R c = [].
Hypothesis Hcopy : forall c c', client_copy c = Done c' -> refers R c' = [].
Hypothesis Hassign : forall d c c', client_assign d c = Done c' -> refers R c' = [].
Hypothesis Hmove : forall c, refers R (client_move c) = refers R c.
Hypothesis Hmoved : forall c, refers R (client_moved c) = [].
Hypothesis Hmoveas : forall d c, c_kind d = c_kind c -> refers R (client_move_assign d c) = refers R c.
Hypothesis Hserver : forall c p c', client_setServerName c p = Done c' -> refers R c' = refers R c.
Hypothesis Hset : forall c, (forall n, refers R (set_port n c) = refers R c) /\
  (forall b, refers R (set_batch b c) = refers R c) /\ (forall n, refers R (set_timeout n c) = refers R c) /\
  (forall x, refers R (set_cred x c) = refers R c) /\ (forall b, refers R (set_keep b c) = refers R c) /\
  (forall b, refers R (set_selfsigned b c) = refers R c).

Lemma G_create : forall o w x w', (forall c, o = Done c -> refers R c = []) -> create o w = (x, w') -> G w -> G w'.
Proof.
  intros o w x w' H C g. unfold create in C. destruct o; inversion C; subst; try exact g.
  apply (G_sub w); [| |reflexivity|exact g]; rewrite held_push, (H _ eq_refl), app_nil_r; [apply g|auto].
Qed.

Lemma G_alter : forall i f w x w', (forall c c', f c = Done c' -> forall y, In y (refers R c') -> In y (refers R c)) ->
  alter i f w = (x, w') -> G w -> G w'.
Proof.
  intros i f w x w' H C g. unfold alter in C. destruct (get_client w i) as [c|] eqn:E; [|inversion C; subst; exact g].
  destruct (f c) as [c'| | | | |] eqn:F; inversion C; subst; try exact g.
  eapply G_put; eauto.
Qed.

Lemma get_split2 : forall w i j c d, i <> j -> get_client w i = Some d -> get_client w j = Some c ->
  forall v, get_client (put_client i v w) j = Some c.
Proof.
  intros w i j c d Hn Hi Hj v. unfold get_client, put_client in *. simpl. rewrite nth_list_set.
  destruct (Nat.eqb i j) eqn:E; [apply Nat.eqb_eq in E; contradiction|exact Hj].
Qed.

Lemma G_step : forall o w x w', step o w = (x, w') -> fresh R (w_trace w') -> G w -> G w'.
Proof.
  intros o w x w' H F g. destruct o; cbn [step] in H.
  - eapply G_create; [|exact H|exact g]. intros. eapply Hnew; eauto.
  - destruct (get_client w src) as [c|]; [|inversion H; subst; exact g].
    eapply G_create; [|exact H|exact g]. intros. eapply Hcopy; eauto.
  - destruct (get_client w src) as [c|] eqn:E; [|inversion H; subst; exact g]. inversion H; subst.
    assert (E2 := E). apply get_split in E2 as (l1 & l2 & El & _ & Es).
    assert (P : held (w_clients (push_client (client_move c) (put_client src (Some (client_moved c)) w))) =
                (held l1 ++ held l2) ++ refers R c).
    { rewrite held_push. simpl. rewrite Es, held_app. simpl. rewrite Hmoved, Hmove. reflexivity. }
    destruct g as (G1 & G2 & G3). rewrite El, held_app in G1, G2. simpl in G1, G2.
    unfold G. rewrite P. simpl w_trace. split; [|split; [|exact G3]].
    + apply NoDup_mid in G1 as (A & B & C). rewrite <- (app_nil_r (refers R c)).
      apply NoDup_mid. rewrite app_nil_r. auto.
    + intros y Y. apply G2. rewrite !in_app_iff in *. tauto.
  - destruct (get_client w dst) as [d|] eqn:Ed; [|inversion H; subst; exact g].
    destruct (get_client w src) as [c|] eqn:E; [|inversion H; subst; exact g].
    destruct (Nat.eqb dst src); [inversion H; subst; exact g|].
    destruct (kind_eqb _ _); [|inversion H; subst; exact g].
    eapply G_alter; [|exact H|exact g]. intros c0 c' A y. rewrite (Hassign _ _ _ A). intros [].
  - destruct (get_client w dst) as [d|] eqn:Ed; [|inversion H; subst; exact g].
    destruct (get_client w src) as [c|] eqn:E; [|inversion H; subst; exact g].
    destruct (Nat.eqb dst src) eqn:Ne; [inversion H; subst; exact g|]. apply Nat.eqb_neq in Ne.
    destruct (kind_eqb _ _) eqn:Ke; [|inversion H; subst; exact g]. apply kind_eqb_true in Ke. inversion H; subst. clear H.
    (* First drop what the target held and what the source held, then give the latter to the target. *)
    set (w0 := put_client src (Some (client_moved c)) w).
    assert (Ed' : get_client w0 dst = Some d) by (eapply get_split2; eauto).
    assert (W : w_clients (put_client src (Some (client_moved c)) (put_client dst (Some (client_move_assign d c)) w))
                = list_set (w_clients w0) dst (Some (client_move_assign d c))).
    { unfold w0, put_client. simpl. clear - Ne. revert dst Ne. generalize (w_clients w). intros l. revert src.
      induction l as [|z l IH]; intros [|i] [|j] Ne; simpl; try reflexivity; [congruence|].
      rewrite IH; [reflexivity|]. congruence. }
    unfold G. rewrite W. simpl w_trace.
    apply get_split in E as (l1 & l2 & El & _ & Es).
    assert (Ec : w_clients w0 = l1 ++ Some (client_moved c) :: l2) by (unfold w0; simpl; apply Es).
    apply get_split in Ed' as (m1 & m2 & Em & _ & Ems). rewrite Ems, held_app. simpl. rewrite Hmoveas by exact Ke.
    destruct g as (G1 & G2 & G3). rewrite El, held_app in G1, G2. simpl in G1, G2.
    assert (Q : held l1 ++ held l2 = held m1 ++ refers R d ++ held m2).
    { rewrite Ec in Em. apply (f_equal held) in Em. rewrite !held_app in Em. simpl in Em. rewrite Hmoved in Em. exact Em. }
    apply NoDup_mid in G1 as (A & B & C).
    split; [|split; [|exact G3]].
    + rewrite Q in B, C. apply NoDup_mid in B as (B1 & B2 & B3).
      apply NoDup_mid. repeat split; auto. intros y Y Z. apply (C y Y). rewrite !in_app_iff in *. tauto.
    + intros y Y. apply G2. assert (In y (held l1 ++ held l2) \/ In y (refers R c)) as [Z|Z].
      { rewrite Q. rewrite !in_app_iff in *. tauto. }
      * rewrite !in_app_iff in *. tauto.
      * rewrite !in_app_iff. tauto.
  - eapply (G_run_on i (sendMail m) Some); [exact N1| |intros; apply sendMail_walk|exact H|exact F|exact g].
    intros c. simpl. auto.
  - eapply G_alter; [|exact H|exact g]. intros c c' A y. rewrite (Hserver _ _ _ A). auto.
  - eapply G_alter; [|exact H|exact g]. intros c c' A y. inversion A; subst. destruct (Hset c) as (X & _). rewrite X. auto.
  - eapply G_alter; [|exact H|exact g]. intros c c' A y. inversion A; subst. destruct (Hset c) as (_ & X & _). rewrite X. auto.
  - eapply G_alter; [|exact H|exact g]. intros c c' A y. inversion A; subst. destruct (Hset c) as (_ & _ & X & _). rewrite X. auto.
  - eapply G_alter; [|exact H|exact g]. intros c0 c' A y. inversion A; subst. destruct (Hset c0) as (_ & _ & _ & X & _). rewrite X. auto.
  - eapply G_alter; [|exact H|exact g]. intros c c' A y. inversion A; subst. destruct (Hset c) as (_ & _ & _ & _ & X & _). rewrite X. auto.
  - eapply G_alter; [|exact H|exact g]. intros c c' A y. destruct (Hset c) as (_ & _ & _ & _ & _ & X).
    assert (c' = set_selfsigned b c) as -> by (cbv beta in A; destruct (c_kind c); [discriminate A|injection A as <-; reflexivity|injection A as <-; reflexivity]). rewrite X. auto.
  - eapply (G_run_on i destroy (fun _ => None)); [exact N1| |intros; apply destroy_walk|exact H|exact F|exact g].
    intros c. simpl. split; [intros y []|constructor].
Qed.

Lemma run_trace : forall ops w, exists t, w_trace (snd (run ops w)) = w_trace w ++ t.
Proof.
  induction ops as [|o ops IH]; intros w; cbn [run]; [exists []; rewrite app_nil_r; reflexivity|].
  destruct (step o w) as [x w1] eqn:E. destruct (step_trace _ _ _ _ E) as [t T].
  destruct (continues x); [|exists t; exact T]. destruct (IH w1) as [t' T'].
  destruct (run ops w1) as [xs w2]. simpl in *. exists (t ++ t'). rewrite T', T, app_assoc. reflexivity.
Qed.

Lemma G_run : forall ops w, fresh R (w_trace (snd (run ops w))) -> G w -> G (snd (run ops w)).
Proof.
  induction ops as [|o ops IH]; intros w F g; [exact g|]. cbn [run] in *.
  destruct (step o w) as [x w1] eqn:E.
  destruct (continues x).
  - assert (T := run_trace ops w1). specialize (IH w1). destruct (run ops w1) as [xs w2]. simpl in *.
    destruct T as [t T]. apply IH; [exact F|]. eapply G_step; eauto. rewrite T in F. eapply fresh_prefix; eauto.
  - simpl in *. eapply G_step; eauto.
Qed.

Lemma G_initial : forall e, G (initial_world e).
Proof.
  intros e. repeat split; simpl; [constructor|intros x []|].
  intros t1 ev t2 x E. destruct t1; discriminate E.
Qed.

Lemma in_held : forall w i c x, get_client w i = Some c -> In x (refers R c) -> In x (held (w_clients w)).
Proof.
  intros w i c x E H. apply get_split in E as (l1 & l2 & -> & _ & _). rewrite held_app. simpl.
  rewrite !in_app_iff. auto.
Qed.

Lemma G_facts : forall w, G w -> releases_open R (w_trace w) /\ held_apart R w /\ held_open R w.
Proof.
  intros w (G1 & G2 & G3). split; [exact G3|]. split.
  - intros i j ci cj x Ne Ei Ej Hi Hj.
    assert (Ej' : get_client (put_client i None w) j = Some cj) by (eapply get_split2; eauto).
    apply get_split in Ei as (l1 & l2 & El & _ & Es).
    apply (in_held _ _ _ _ Ej') in Hj. simpl in Hj. rewrite Es, held_app in Hj. simpl in Hj.
    rewrite El, held_app in G1. simpl in G1. apply NoDup_mid in G1 as (_ & _ & C). exact (C _ Hi Hj).
  - intros i c x E H. apply G2. eapply in_held; eauto.
Qed.

End Own.

(** ** The three kinds of resources *)

Ltac quiet_tac := split; reflexivity.

Lemma estep_shape : forall R l s s', estep l s s' ->
  (forall c z, refers R (set_errno z c) = refers R c) ->
  (forall c z, refers R (set_resp z c) = refers R c) ->
  (forall c z, refers R (set_auth z c) = refers R c) ->
  (forall c z, refers R (set_conn z c) = refers R c) ->
  (forall c z, refers R (set_keep z c) = refers R c) ->
  (forall c c', core c' = core c -> refers R c' = refers R c) ->
  (forall z ev, net_event z ev -> quiet R ev) -> (forall z ev, read_event z ev -> quiet R ev) ->
  (forall z ev, tls_event z ev -> quiet R ev) ->
  (forall a b c, quiet R (EvFcntl a b c)) -> (forall a b c, quiet R (EvSend a b c)) ->
  (forall a b c, quiet R (EvPuts a b c)) ->
  (forall O, J R O s -> J R O s') \/
  l = LSocket \/ l = LClose \/ l = LTls.
Proof.
  intros R l s s' E He Hr Ha Hc Hk Hl Qn Qr Qt Qf Qs Qp.
  assert (A : forall ev, quiet R ev -> forall O, J R O s -> J R O (ev_state s ev)).
  { intros ev Q O Hj. destruct s as [c e t]. apply J_quiet; assumption. }
  assert (C : forall f, (forall c, refers R (f c) = refers R c) -> forall O, J R O s -> J R O (c_state s f)).
  { intros f Q O Hj. destruct s as [c e t]. unfold c_state. simpl. eapply J_client; [|exact Hj]. intros x. rewrite Q. auto. }
  destruct E; auto; left; intros O Hj; try (apply A; solve [auto|eapply Qn; eauto|eapply Qr; eauto|eapply Qt; eauto]); try (apply C; [auto|exact Hj]).
  - apply addLog_core in H as (Hco & _ & Ht & _). destruct s as [c e t], s' as [c' e' t']. simpl in *. subst t'.
    eapply J_client; [|exact Hj]. intros x. rewrite (Hl _ _ Hco). auto.
Qed.


Lemma J_quiets : forall R O l c e t, Forall (quiet R) l -> J R O (mkSt c e t) -> J R O (mkSt c e (t ++ l)).
Proof.
  intros R O l c e. induction l as [|ev l IH]; intros t H Hj; [rewrite app_nil_r; exact Hj|].
  inversion H; subst. replace (t ++ ev :: l) with ((t ++ [ev]) ++ l) by (rewrite <- app_assoc; reflexivity).
  apply IH; [assumption|]. apply J_quiet; assumption.
Qed.

Definition ctx_free (c : client) : list event := match c_ctx c with Some i => [EvCtxFree i] | None => [] end.
Definition bio_free (c : client) : list event := match c_bio c with Some b => [EvBioFree (bio_id b)] | None => [] end.
Definition sock_free (c : client) : list event := if c_sock c =? 0 then [] else [EvClose (c_sock c)].

Lemma quiet_nil : forall R, Forall (quiet R) [].
Proof. constructor. Qed.

(** Closing: [d] refers to what the client still refers to. *)
Lemma teardown_J : forall R O c e t,
  (forall c0 e0 t0, J R O (mkSt c0 e0 t0) -> c_ctx c0 = c_ctx c -> refers R c0 = refers R c ->
     J R O (mkSt (set_ctx None c0) e0 (t0 ++ ctx_free c))) ->
  (forall c0 e0 t0, J R O (mkSt c0 e0 t0) -> c_bio c0 = c_bio c ->
     J R O (mkSt (set_bio None c0) e0 (t0 ++ bio_free c))) ->
  (forall c0 e0 t0, J R O (mkSt c0 e0 t0) -> c_sock c0 = c_sock c ->
     J R O (mkSt (set_sock 0 c0) e0 (t0 ++ sock_free c))) ->
  (forall c0, refers R (set_conn false c0) = refers R c0) ->
  J R O (mkSt c e t) -> J R O (teardown (mkSt c e t)).
Proof.
  intros R O c e t H1 H2 H3 H4 Hj.
  assert (Hj' : J R O (mkSt (set_conn false c) e t)).
  { eapply J_client; [|exact Hj]. intros x. rewrite H4. auto. }
  assert (Ha := H1 _ _ _ Hj' eq_refl (H4 c)).
  assert (Hb := H2 _ _ _ Ha eq_refl). assert (Hc := H3 _ _ _ Hb eq_refl). rewrite <- !app_assoc in Hc.
  unfold teardown. simpl. fold (ctx_free c) (bio_free c) (sock_free c).
  destruct (c_kind c); [|exact Hc|exact Hc]. apply H3; [exact Hj'|reflexivity].
Qed.

Lemma sock_steps : kept_by_steps sockets.
Proof.
  intros O l s s' E F Hj.
  destruct (estep_shape sockets l s s' E) as [X|X]; try reflexivity; try (intros; quiet_tac);
    try (intros z ev []; quiet_tac); try (intros ev []; quiet_tac).
  - intros c c' H. simpl. replace (c_sock c') with (c_sock c); [reflexivity|].
    change (c_sock (core c) = c_sock (core c')). rewrite H. reflexivity.
  - apply X. exact Hj.
  - destruct E; destruct X as [X|[X|X]]; try discriminate X; destruct s as [c e t]; simpl in *.
    + eapply J_acquire; [exact F|reflexivity| |exact Hj]. intros x. destruct r as [n|z]; simpl.
      * destruct (Z.of_N n <=? 0); simpl; tauto.
      * intros [].
    + apply teardown_J; [| | |reflexivity|exact Hj].
      * intros c0 e0 t0 H _ _. apply J_quiets; [unfold ctx_free; destruct (c_ctx c); repeat constructor|].
        eapply J_client; [|exact H]. auto.
      * intros c0 e0 t0 H _. apply J_quiets; [unfold bio_free; destruct (c_bio c); repeat constructor|].
        eapply J_client; [|exact H]. auto.
      * intros c0 e0 t0 H Es. unfold sock_free. rewrite <- Es. destruct (c_sock c0 =? 0) eqn:Z0.
        -- rewrite app_nil_r. eapply J_client; [|exact H]. intros x [].
        -- eapply J_release; [reflexivity| | |exact H]; simpl.
           ++ intros x. destruct (c_sock c0 <? 0) eqn:L; [intros []|].
              destruct (c_sock c0 <=? 0) eqn:L2; [lia|auto].
           ++ intros x [].
    + apply J_quiet; [destruct H; quiet_tac|exact Hj].
    + eapply J_client; [|exact Hj]. auto.
    + eapply J_client; [|exact Hj]. auto.
    + eapply J_client; [|apply J_quiet; [|exact Hj]; quiet_tac]. auto.
    + eapply J_client; [|apply J_quiet; [|exact Hj]; quiet_tac]. auto.
Qed.

Lemma ctx_steps : kept_by_steps contexts.
Proof.
  intros O l s s' E F Hj.
  destruct (estep_shape contexts l s s' E) as [X|X]; try reflexivity; try (intros; quiet_tac);
    try (intros z ev []; quiet_tac); try (intros ev []; quiet_tac).
  - intros c c' H. simpl. replace (c_ctx c') with (c_ctx c); [reflexivity|].
    change (c_ctx (core c) = c_ctx (core c')). rewrite H. reflexivity.
  - apply X. exact Hj.
  - destruct E; destruct X as [X|[X|X]]; try discriminate X; destruct s as [c e t]; simpl in *.
    + eapply J_client; [|apply J_quiet; [|exact Hj]; quiet_tac]. auto.
    + apply teardown_J; [| | |reflexivity|exact Hj].
      * intros c0 e0 t0 H Ec _. unfold ctx_free. rewrite <- Ec. destruct (c_ctx c0) as [i|] eqn:C.
        -- eapply J_release; [reflexivity| | |exact H]; simpl.
           ++ rewrite C. auto.
           ++ intros x [].
        -- rewrite app_nil_r. eapply J_client; [|exact H]. intros x [].
      * intros c0 e0 t0 H _. apply J_quiets; [unfold bio_free; destruct (c_bio c); repeat constructor|].
        eapply J_client; [|exact H]. auto.
      * intros c0 e0 t0 H _. apply J_quiets; [unfold sock_free; destruct (c_sock c =? 0); repeat constructor|].
        eapply J_client; [|exact H]. auto.
    + apply J_quiet; [destruct H; quiet_tac|exact Hj].
    + eapply J_client; [|exact Hj]. intros x [].
    + eapply J_client; [|exact Hj]. auto.
    + eapply J_acquire; [exact F|reflexivity| |exact Hj]. simpl. tauto.
    + eapply J_client; [|apply J_quiet; [|exact Hj]; quiet_tac]. auto.
Qed.

Lemma bio_steps : kept_by_steps bios.
Proof.
  intros O l s s' E F Hj.
  destruct (estep_shape bios l s s' E) as [X|X]; try reflexivity; try (intros; quiet_tac);
    try (intros z ev []; quiet_tac); try (intros ev []; quiet_tac).
  - intros c c' H. simpl. replace (c_bio c') with (c_bio c); [reflexivity|].
    change (c_bio (core c) = c_bio (core c')). rewrite H. reflexivity.
  - apply X. exact Hj.
  - destruct E; destruct X as [X|[X|X]]; try discriminate X; destruct s as [c e t]; simpl in *.
    + eapply J_client; [|apply J_quiet; [|exact Hj]; quiet_tac]. auto.
    + apply teardown_J; [| | |reflexivity|exact Hj].
      * intros c0 e0 t0 H _ _. apply J_quiets; [unfold ctx_free; destruct (c_ctx c); repeat constructor|].
        eapply J_client; [|exact H]. auto.
      * intros c0 e0 t0 H Ec. unfold bio_free. rewrite <- Ec. destruct (c_bio c0) as [i|] eqn:C.
        -- eapply J_release; [reflexivity| | |exact H]; simpl.
           ++ rewrite C. auto.
           ++ intros x [].
        -- rewrite app_nil_r. eapply J_client; [|exact H]. intros x [].
      * intros c0 e0 t0 H _. apply J_quiets; [unfold sock_free; destruct (c_sock c =? 0); repeat constructor|].
        eapply J_client; [|exact H]. auto.
    + apply J_quiet; [destruct H; quiet_tac|exact Hj].
    + eapply J_client; [|exact Hj]. auto.
    + eapply J_client; [|exact Hj]. intros x [].
    + eapply J_client; [|apply J_quiet; [|exact Hj]; quiet_tac]. auto.
    + eapply J_acquire; [exact F|reflexivity| |exact Hj]. simpl. tauto.
Qed.

(** ** TLS objects are fresh by construction of the model's identifiers *)

Definition ids_below (R : resource) (n : nat) (t : list event) : Prop :=
  forall ev x, In ev t -> In x (acquires R ev) -> x < Z.of_nat n.

Definition numbered (R : resource) (s : st) : Prop :=
  ids_below R (e_next (s_e s)) (s_t s) /\ fresh R (s_t s).

Lemma open_acquired : forall R t x, In x (open_in R t) -> exists ev, In ev t /\ In x (acquires R ev).
Proof.
  intros R t. induction t as [|ev t IH] using rev_ind; intros x H; [destruct H|].
  rewrite open_snoc, in_open_after in H. destruct H as [H|[H _]].
  - exists ev. rewrite in_app_iff. simpl. auto.
  - apply IH in H as (ev' & A & B). exists ev'. rewrite in_app_iff. auto.
Qed.

Lemma fresh_snoc : forall R t ev, fresh R t -> (forall x, In x (acquires R ev) -> ~ In x (open_in R t)) ->
  fresh R (t ++ [ev]).
Proof.
  intros R t ev H He t1 ev' t2 x E Hx.
  destruct (exists_last (l := ev' :: t2)) as (l & z & E2); [discriminate|].
  rewrite E2, app_assoc in E. apply app_inj_tail in E as [E <-].
  destruct t2 as [|y t2].
  - destruct l; [|destruct l; discriminate E2]. inversion E2; subst. rewrite app_nil_r in *. auto.
  - destruct l as [|y' l]; [discriminate E2|]. inversion E2; subst. eapply H; eauto.
Qed.

Lemma numbered_quiet : forall R c e t c' e' l, Forall (fun ev => acquires R ev = []) l -> (e_next e <= e_next e')%nat ->
  numbered R (mkSt c e t) -> numbered R (mkSt c' e' (t ++ l)).
Proof.
  intros R c e t c' e' l H L [A B]. split; simpl in *.
  - intros ev x Hev Hx. apply in_app_iff in Hev as [Hev|Hev]; [specialize (A ev x Hev Hx); lia|].
    rewrite Forall_forall in H. rewrite (H _ Hev) in Hx. destruct Hx.
  - clear A. induction l as [|ev l IH] using rev_ind; [rewrite app_nil_r; exact B|].
    rewrite Forall_forall in H. rewrite app_assoc. apply fresh_snoc.
    + apply IH. apply Forall_forall. intros z Hz. apply H. apply in_app_iff; auto.
    + intros x. rewrite H; [intros []|]. apply in_app_iff; right; left; reflexivity.
Qed.

Lemma numbered_new : forall R c e t c' e' ev, acquires R ev = [Z.of_nat (e_next e)] -> (e_next e < e_next e')%nat ->
  numbered R (mkSt c e t) -> numbered R (mkSt c' e' (t ++ [ev])).
Proof.
  intros R c e t c' e' ev H L [A B]. split; simpl in *.
  - intros ev' x Hev Hx. apply in_app_iff in Hev as [Hev|[<-|[]]]; [specialize (A ev' x Hev Hx); lia|].
    rewrite H in Hx. destruct Hx as [<-|[]]. lia.
  - apply fresh_snoc; [exact B|]. intros x Hx Ho. rewrite H in Hx. destruct Hx as [<-|[]].
    apply open_acquired in Ho as (ev' & Hev & Hx). specialize (A _ _ Hev Hx). lia.
Qed.

Lemma numbered_estep : forall R l s s', estep l s s' ->
  (forall ev, acquires R ev = [] \/ exists i, acquires R ev = [Z.of_nat i] /\ (ev = EvCtxNew i \/ exists fd, ev = EvBioNew i fd)) ->
  numbered R s -> numbered R s'.
Proof.
  intros R l s s' E HR H.
  assert (Q : forall ev, (forall i, ev <> EvCtxNew i) -> (forall i fd, ev <> EvBioNew i fd) -> acquires R ev = []).
  { intros ev A B. destruct (HR ev) as [X|(i & X & [Y|[fd Y]])]; [exact X| |]; exfalso; [eapply A|eapply B]; eauto. }
  assert (A : forall ev, (forall i, ev <> EvCtxNew i) -> (forall i fd, ev <> EvBioNew i fd) -> numbered R (ev_state s ev)).
  { intros ev H1 H2. destruct s as [c e t]. eapply numbered_quiet; [|reflexivity|exact H]. repeat constructor. auto. }
  assert (C : forall c' e', e_next e' = e_next (s_e s) -> numbered R (mkSt c' e' (s_t s))).
  { intros c' e' He. destruct s as [c e t]. simpl in *. rewrite <- (app_nil_r t). eapply numbered_quiet; [constructor| |exact H]. lia. }
  destruct E; try (apply C; reflexivity); try (apply A; discriminate).
  - apply C. apply H0.
  - apply addLog_core in H0 as (_ & He & Ht & _). destruct s' as [c' e' t']. simpl in *. rewrite Ht. apply C. rewrite He. reflexivity.
  - destruct H0; apply A; discriminate.
  - unfold teardown. destruct s as [c e t]. simpl. destruct (c_kind c);
      (eapply numbered_quiet; [|reflexivity|exact H]); destruct (c_sock c =? 0), (c_ctx c), (c_bio c);
      repeat constructor; apply Q; discriminate.
  - destruct H0; apply A; discriminate.
  - destruct H0; apply A; discriminate.
  - destruct s as [c e t]. simpl. destruct (HR (EvCtxNew (e_next e))) as [X|(i & X & [Y|[fd Y]])]; [| |discriminate Y].
    + eapply numbered_quiet; [|simpl; apply Nat.le_succ_diag_r|exact H]. repeat constructor. exact X.
    + inversion Y; subst. eapply numbered_new; [exact X|simpl; lia|exact H].
  - destruct s as [c e t]. simpl. destruct (HR (EvBioNew (e_next e) (c_sock c))) as [X|(i & X & [Y|[fd Y]])]; [|discriminate Y|].
    + eapply numbered_quiet; [|simpl; apply Nat.le_succ_diag_r|exact H]. repeat constructor. exact X.
    + inversion Y; subst. eapply numbered_new; [exact X|simpl; lia|exact H].
Qed.

Lemma numbered_run : forall R,
  (forall ev, acquires R ev = [] \/ exists i, acquires R ev = [Z.of_nat i] /\ (ev = EvCtxNew i \/ exists fd, ev = EvBioNew i fd)) ->
  forall e ops, fresh R (w_trace (snd (run ops (initial_world e)))).
Proof.
  intros R HR e ops.
  set (I := fun w => ids_below R (e_next (w_env w)) (w_trace w) /\ fresh R (w_trace w)).
  cut (I (snd (run ops (initial_world e)))); [intros [_ X]; exact X|].
  apply (run_inv (fun _ => True)); [|auto|].
  - intros o w x w' _ S [A B]. unfold I. apply step_effect in S as [[-> ->]|[(i & m & c & _ & _ & _ & -> & ->)|(i & c & _ & _ & _ & -> & ->)]].
    + split; assumption.
    + assert (W := sendMail_walk m (mkSt c (w_env w) (w_trace w))). destruct W as [W _].
      apply (steps_inv _ (numbered R) _ _ (fun l s s' _ E => numbered_estep R l s s' E HR) W). split; assumption.
    + assert (W := destroy_walk (mkSt c (w_env w) (w_trace w))). destruct W as [W _].
      apply (steps_inv _ (numbered R) _ _ (fun l s s' _ E => numbered_estep R l s s' E HR) W). split; assumption.
  - split; simpl; [intros ev x []|]. intros t1 ev t2 x E. destruct t1; discriminate E.
Qed.

(** ** The statements *)

Ltac own_tac :=
  try reflexivity;
  try (intros; simpl; repeat match goal with |- context [match ?x with _ => _ end] => destruct x end;
       repeat constructor; simpl; tauto);
  try (intros k p n c H; unfold client_new in H; destruct (check_server_name p); inversion H; reflexivity);
  try (intros c c' H; unfold client_copy in H; destruct (c_server c); inversion H; reflexivity);
  try (intros d c c' H; unfold client_assign in H; destruct (c_server c); inversion H; reflexivity);
  try (intros c p c' H; unfold client_setServerName, obind in H; destruct (check_server_name p); inversion H; reflexivity);
  try (intros; repeat split).

Lemma own_sockets : forall e ops, fresh sockets (w_trace (snd (run ops (initial_world e)))) ->
  let w := snd (run ops (initial_world e)) in
  releases_open sockets (w_trace w) /\ held_apart sockets w /\ held_open sockets w.
Proof.
  intros e ops F. apply G_facts. apply G_run; [exact sock_steps| | | | | | | | | |exact F|apply G_initial]; own_tac.
Qed.
Lemma own_contexts : forall e ops, let w := snd (run ops (initial_world e)) in
  releases_open contexts (w_trace w) /\ held_apart contexts w /\ held_open contexts w.
Proof.
  intros e ops. assert (F : fresh contexts (w_trace (snd (run ops (initial_world e))))).
  { apply numbered_run. intros []; simpl; eauto 6. }
  apply G_facts. apply G_run; [exact ctx_steps| | | | | | | | | |exact F|apply G_initial]; own_tac.
Qed.
Lemma own_bios : forall e ops, let w := snd (run ops (initial_world e)) in
  releases_open bios (w_trace w) /\ held_apart bios w /\ held_open bios w.
Proof.
  intros e ops. assert (F : fresh bios (w_trace (snd (run ops (initial_world e))))).
  { apply numbered_run. intros []; simpl; eauto 6. }
  apply G_facts. apply G_run; [exact bio_steps| | | | | | | | | |exact F|apply G_initial]; own_tac.
Qed.
