(** Further mails over the same TLS connection. *)

From Coq Require Import Ascii String List NArith ZArith Bool Lia ZifyBool ZifyNat ZifyN.
From Verif Require Import Base Lib ModelUtil ModelBase64 ModelAddress ModelAttachment ModelMessage ModelReply ModelErrors ModelState ModelClient ModelWorld
  SpecInject ProofInject ProofInject2 ProofInject3.
From Verif Require ProofSteps ProofSend ProofMail ProofMail2 ProofLife ProofOwn2.
Import ListNotations.
Open Scope Z_scope.

(** Only disconnecting ends a connection, and it frees the channel. *)
Definition held (c : client) : Prop := c_conn c = true \/ c_bio c = None.
Lemma steps_held : forall s s', ProofSteps.steps ProofMail.stay s s' -> c_kind (s_c s) <> KPlain -> held (s_c s) -> held (s_c s').
Proof.
  intros s s' H. induction H as [s|l s1 s2 s3 E Pl S IH]; intros K O; [exact O|].
  pose proof (ProofLife.estep_kind _ _ _ E) as K2. apply IH; [congruence|].
  destruct (ProofLife.estep_stay _ _ _ E Pl) as (t1 & _ & _ & [[-> _]|(C1 & F1 & B1 & _)]).
  - right. apply (ProofLife.teardown_off s1), K.
  - destruct O as [O|O]; [left|right]; congruence.
Qed.
Lemma send_held : forall m s s', sendMail m s = (Done 0, s') -> c_kind (s_c s) <> KPlain -> held (s_c s') /\ c_batch (s_c s') = c_batch (s_c s).
Proof.
  intros m s s' H K. destruct (ProofMail2.send_split m s _ _ H) as (s1 & t1 & _ & _ & _ & [[_ N]|(C1 & Cf & _ & H2)]); [contradiction|].
  assert (K1 : c_kind (s_c s1) <> KPlain) by (unfold ProofSend.config in Cf; congruence).
  pose proof (ProofMail.stay_transaction m s1) as [W _]. rewrite H2 in W. cbn [snd] in W. split; [exact (steps_held _ _ W K1 (or_introl C1))|].
  pose proof (ProofSend.steps_config _ _ _ W) as Cg. unfold ProofSend.config in *. congruence.
Qed.

Definition both (s1 s2 : st) : Prop := like R0 s1 s2 /\ c_conn (s_c s1) = true /\ c_batch (s_c s1) = true.
Lemma over_both : forall m m' s1 s2 s1' s2', sendMail m s1 = (Done 0, s1') -> sendMail m' s2 = (Done 0, s2') -> c_kind (s_c s1) <> KPlain -> c_batch (s_c s1) = true ->
  over 0 s1' s2' -> both s1' s2'.
Proof.
  intros m m' s1 s2 s1' s2' H1 H2 K Bt [L|[_ N]]; destruct (send_held _ _ _ H1 K) as [[C|C] Bt']; try congruence.
  - split; [exact L|split; [exact C|congruence]].
  - destruct L as ((_ & _ & _ & b1 & _ & X & _) & _). congruence.
Qed.
Lemma out_both : forall m s1 s2 s1' s2', out over nz (sendMail m s1) (sendMail m s2) -> sendMail m s1 = (Done 0, s1') -> sendMail m s2 = (Done 0, s2') ->
  c_kind (s_c s1) <> KPlain -> c_batch (s_c s1) = true -> both s1' s2'.
Proof.
  intros m s1 s2 s1' s2' O H1 H2 K Bt. apply (over_both m m s1 s2); auto. unfold out in O. rewrite H1, H2 in O. cbn [fst snd] in O.
  destruct O as [[_ X]|(_ & N & _)]; [exact X|exfalso; apply N; reflexivity].
Qed.
Lemma next_send : forall m s1 s2, both s1 s2 -> out over nz (sendMail m s1) (sendMail m s2).
Proof.
  intros m s1 s2 (L & C & _). rewrite !ProofLife.kept_send; [apply rel_transaction; exact L| |exact C].
  destruct L as ((_ & _ & E & _) & _). congruence.
Qed.
Lemma both_kind : forall s1 s2, both s1 s2 -> c_kind (s_c s1) <> KPlain.
Proof. intros s1 s2 (((O & _) & _) & _). apply O. Qed.

(** ** Worlds *)
Definition bothw (i : nat) (w1 w2 : world) : Prop :=
  exists c1 c2, get_client w1 i = Some c1 /\ get_client w2 i = Some c2 /\ both (mkSt c1 (w_env w1) (w_trace w1)) (mkSt c2 (w_env w2) (w_trace w2)).
Definition same_so_far (x1 x2 : outcome Z * world) : Prop :=
  begins (conversation (w_trace (snd x1))) (conversation (w_trace (snd x2))) \/ begins (conversation (w_trace (snd x2))) (conversation (w_trace (snd x1))).
Lemma send_step : forall i m w c o s, get_client w i = Some c -> sendMail m (mkSt c (w_env w) (w_trace w)) = (o, s) ->
  fst (step (OSend i m) w) = o /\ w_trace (snd (step (OSend i m) w)) = s_t s /\ w_env (snd (step (OSend i m) w)) = s_e s /\ get_client (snd (step (OSend i m) w)) i = Some (s_c s).
Proof.
  intros i m w c o s G E. cbn [step]. unfold run_on. rewrite G, E. cbn [fst snd w_trace w_env]. split; [reflexivity|]. split; [reflexivity|]. split; [reflexivity|].
  exact (ProofOwn2.get_put_eq w i c (s_c s) G).
Qed.
Lemma next_step : forall i m w1 w2, bothw i w1 w2 ->
  let x1 := step (OSend i m) w1 in let x2 := step (OSend i m) w2 in
  same_so_far x1 x2 /\
  (forall a b, fst x1 = Done a -> fst x2 = Done b -> conversation (w_trace (snd x1)) = conversation (w_trace (snd x2)) /\ (a = 0 <-> b = 0)) /\
  (fst x1 = Done 0 -> fst x2 = Done 0 -> bothw i (snd x1) (snd x2)).
Proof.
  intros i m w1 w2 (c1 & c2 & G1 & G2 & J). pose proof (next_send m _ _ J) as O. cbv zeta. unfold same_so_far.
  destruct (sendMail m (mkSt c1 (w_env w1) (w_trace w1))) as [o1 s1] eqn:E1. destruct (sendMail m (mkSt c2 (w_env w2) (w_trace w2))) as [o2 s2] eqn:E2.
  destruct (send_step i m w1 c1 o1 s1 G1 E1) as (F1 & T1 & V1 & P1). destruct (send_step i m w2 c2 o2 s2 G2 E2) as (F2 & T2 & V2 & P2).
  rewrite F1, F2, T1, T2. split; [|split].
  - unfold out in O. cbn [fst snd] in O. destruct o1, o2; try (left; exact O); try (right; exact O); try exact O.
    left. assert (E : sp s1 = sp s2) by (destruct O as [[_ E]|((_ & _ & _ & _ & E) & _)]; [exact (over_sp _ _ _ E)|exact E]). unfold sp in E. rewrite E. apply begins_refl.
  - intros a b -> ->. unfold out in O. cbn [fst snd] in O. destruct O as [[<- E]|((_ & _ & _ & _ & E) & N1 & N2)].
    + split; [exact (over_sp _ _ _ E)|reflexivity].
    + split; [exact E|]. split; intros Z; contradiction.
  - intros -> ->. exists (s_c s1), (s_c s2). split; [exact P1|]. split; [exact P2|]. rewrite V1, V2, T1, T2.
    pose proof (both_kind _ _ J) as K. destruct J as (L & _ & Bt). rewrite <- E1, <- E2 in O.
    pose proof (out_both _ _ _ _ _ O E1 E2 K Bt) as Q. destruct s1, s2. exact Q.
Qed.
Lemma next_steps : forall i ms w1 w2, bothw i w1 w2 ->
  let r1 := run (map (OSend i) ms) w1 in let r2 := run (map (OSend i) ms) w2 in
  (forall o, In o (fst r1) -> o = Done 0) -> (forall o, In o (fst r2) -> exists b, o = Done b) -> fst r2 = fst r1 /\ bothw i (snd r1) (snd r2).
Proof.
  intros i ms. induction ms as [|m ms IH]; intros w1 w2 J; cbv zeta; cbn [map run]; [auto|].
  destruct (next_step i m w1 w2 J) as (_ & S & K). destruct (step (OSend i m) w1) as [o1 v1], (step (OSend i m) w2) as [o2 v2]. cbn [fst snd] in *.
  intros A1 A2.
  assert (D1 : o1 = Done 0). { destruct (continues o1); [destruct (run _ v1) in A1|]; apply A1; left; reflexivity. }
  assert (D2 : exists b, o2 = Done b). { destruct (continues o2); [destruct (run _ v2) in A2|]; apply A2; left; reflexivity. }
  subst o1. destruct D2 as [b ->]. destruct (S 0 b eq_refl eq_refl) as [_ Z]. assert (b = 0) by (apply Z; reflexivity). subst b.
  specialize (IH v1 v2 (K eq_refl eq_refl)). cbn [continues] in *. destruct (run _ v1) as [l1 u1], (run _ v2) as [l2 u2]. cbn [fst snd] in *.
  destruct IH as [E J']; [intros o H; apply A1; right; exact H|intros o H; apply A2; right; exact H|]. split; [rewrite E; reflexivity|exact J'].
Qed.
Lemma bothw_conv : forall i w1 w2, bothw i w1 w2 -> conversation (w_trace w1) = conversation (w_trace w2).
Proof. intros i w1 w2 (c1 & c2 & _ & _ & (L & _)). exact (like_sp _ _ _ L). Qed.

Lemma first_step : forall i m w c e1 e2, get_client w i = Some c -> unconnected c -> c_batch c = true -> same_tls_side e1 e2 ->
  let x1 := step (OSend i m) (in_env e1 w) in let x2 := step (OSend i m) (in_env e2 w) in
  fst x1 = Done 0 -> fst x2 = Done 0 -> started_since (w_trace w) (w_trace (snd x1)) -> started_since (w_trace w) (w_trace (snd x2)) -> bothw i (snd x1) (snd x2).
Proof.
  intros i m w c e1 e2 G U Bt S. cbv zeta. pose proof (two_sends m c e1 e2 (w_trace w) U S) as O. cbv zeta in O.
  destruct (sendMail m (mkSt c e1 (w_trace w))) as [o1 s1] eqn:E1. destruct (sendMail m (mkSt c e2 (w_trace w))) as [o2 s2] eqn:E2.
  destruct (send_step i m (in_env e1 w) c o1 s1 G E1) as (F1 & T1 & V1 & P1). destruct (send_step i m (in_env e2 w) c o2 s2 G E2) as (F2 & T2 & V2 & P2).
  rewrite F1, F2, T1, T2. intros -> -> S1 S2. destruct O as [[L _]|[[L _]|O]]; [exfalso; exact (nothing_started _ _ S1 L)|exfalso; exact (nothing_started _ _ S2 L)|].
  exists (s_c s1), (s_c s2). split; [exact P1|]. split; [exact P2|]. rewrite V1, V2, T1, T2. rewrite <- E1, <- E2 in O.
  pose proof (out_both _ _ _ _ _ O E1 E2 (proj1 U) Bt) as Q. destruct s1, s2. exact Q.
Qed.
Theorem same_later : forall i m0 ms m w c e1 e2, get_client w i = Some c -> unconnected c -> c_batch c = true -> same_tls_side e1 e2 ->
  let x1 := step (OSend i m0) (in_env e1 w) in let x2 := step (OSend i m0) (in_env e2 w) in
  fst x1 = Done 0 -> fst x2 = Done 0 -> started_since (w_trace w) (w_trace (snd x1)) -> started_since (w_trace w) (w_trace (snd x2)) ->
  let r1 := run (map (OSend i) ms) (snd x1) in let r2 := run (map (OSend i) ms) (snd x2) in
  (forall o, In o (fst r1) -> o = Done 0) -> (forall o, In o (fst r2) -> exists b, o = Done b) ->
  fst r2 = fst r1 /\ conversation (w_trace (snd r1)) = conversation (w_trace (snd r2)) /\
  let y1 := step (OSend i m) (snd r1) in let y2 := step (OSend i m) (snd r2) in
  let t1 := w_trace (snd y1) in let t2 := w_trace (snd y2) in
  (begins (conversation t1) (conversation t2) \/ begins (conversation t2) (conversation t1)) /\
  forall a b, fst y1 = Done a -> fst y2 = Done b -> conversation t1 = conversation t2 /\ (a = 0 <-> b = 0).
Proof.
  intros i m0 ms m w c e1 e2 G U Bt S x1 x2 D1 D2 S1 S2 r1 r2 A1 A2. pose proof (first_step i m0 w c e1 e2 G U Bt S D1 D2 S1 S2) as J.
  destruct (next_steps i ms _ _ J A1 A2) as [E J']. split; [exact E|]. split; [exact (bothw_conv _ _ _ J')|].
  destruct (next_step i m _ _ J') as (X & Y & _). split; [exact X|exact Y].
Qed.
