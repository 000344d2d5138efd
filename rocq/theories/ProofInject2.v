(** Two runs side by side, once TLS is used. *)

From Coq Require Import Ascii String List NArith ZArith Bool Lia ZifyBool ZifyNat ZifyN.
From Verif Require Import Base Lib ModelUtil ModelBase64 ModelAddress ModelAttachment ModelMessage ModelReply ModelErrors ModelState ModelClient ModelWorld
  SpecInject ProofInject.
Import ListNotations.
Open Scope Z_scope.

Definition sp (s : st) : list event := conversation (s_t s).
(** Both runs have lost the channel, after the same conversation. *)
Definition gone (s1 s2 : st) : Prop :=
  okc (s_c s1) /\ okc (s_c s2) /\ c_bio (s_c s1) = None /\ c_bio (s_c s2) = None /\ sp s1 = sp s2.
Definition out {A} (Q : A -> st -> st -> Prop) (F : A -> Prop) (x1 x2 : outcome A * st) : Prop :=
  match fst x1, fst x2 with
  | Done a1, Done a2 => a1 = a2 /\ Q a1 (snd x1) (snd x2) \/ gone (snd x1) (snd x2) /\ F a1 /\ F a2
  | Done _, _ => begins (sp (snd x2)) (sp (snd x1))
  | _, Done _ => begins (sp (snd x1)) (sp (snd x2))
  | _, _ => begins (sp (snd x1)) (sp (snd x2)) \/ begins (sp (snd x2)) (sp (snd x1))
  end.
Definition rel {A} (P : st -> st -> Prop) (Q : A -> st -> st -> Prop) (F : A -> Prop) (m1 m2 : M A) : Prop :=
  forall s1 s2, P s1 s2 -> out Q F (m1 s1) (m2 s2).

Lemma conv_loud : forall t t', filter loud t' = filter loud t -> conversation t' = conversation t.
Proof.
  assert (X : forall t, conversation t = filter over_tls (filter loud t)).
  { induction t as [|ev t IH]; [reflexivity|]. unfold conversation in *. cbn. destruct ev; cbn; rewrite ?IH; reflexivity. }
  intros t t' E. rewrite (X t'), (X t), E. reflexivity.
Qed.
Lemma calm_sp : forall s s', calm s s' -> sp s' = sp s.
Proof. intros s s' H. apply conv_loud, (cl_loud _ _ H). Qed.
Lemma grw_sp : forall {A} (m : M A) s, grw m -> begins (sp s) (sp (snd (m s))).
Proof. intros A m s H. apply begins_conv, H. Qed.
Lemma gone_calm : forall s1 s2 t1 t2, gone s1 s2 -> calm s1 t1 -> calm s2 t2 -> gone t1 t2.
Proof.
  intros s1 s2 t1 t2 (O1 & O2 & N1 & N2 & E) C1 C2. split; [|split; [|split; [|split]]].
  - exact (okc_settings _ _ (cl_set _ _ C1) O1).
  - exact (okc_settings _ _ (cl_set _ _ C2) O2).
  - exact (cl_bio _ _ C1).
  - exact (cl_bio _ _ C2).
  - rewrite (calm_sp _ _ C1), (calm_sp _ _ C2). exact E.
Qed.
Lemma out_gone : forall {A} (Q : A -> st -> st -> Prop) F (m1 m2 : M A) s1 s2, mute false F m1 -> mute false F m2 -> gone s1 s2 -> out Q F (m1 s1) (m2 s2).
Proof.
  intros A Q F m1 m2 s1 s2 M1 M2 G. pose proof G as (O1 & O2 & N1 & N2 & E).
  destruct (M1 s1 O1 N1) as [C1 F1]. destruct (M2 s2 O2 N2) as [C2 F2]. pose proof (gone_calm _ _ _ _ G C1 C2) as G'.
  assert (E' : sp (snd (m1 s1)) = sp (snd (m2 s2))) by apply G'.
  unfold out. destruct (fst (m1 s1)), (fst (m2 s2)); try (rewrite E'; apply begins_refl); try (left; rewrite E'; apply begins_refl).
  right. split; [exact G'|]. split; [apply F1|apply F2]; reflexivity.
Qed.
Lemma rel_bind : forall {A C} P (Q : A -> st -> st -> Prop) (F : A -> Prop) (Q' : C -> st -> st -> Prop) F' (m1 m2 : M A) (k1 k2 : A -> M C),
  rel P Q F m1 m2 -> (forall a, rel (Q a) Q' F' (k1 a) (k2 a)) ->
  (forall a, F a -> mute false F' (k1 a)) -> (forall a, F a -> mute false F' (k2 a)) -> (forall a, grw (k1 a)) -> (forall a, grw (k2 a)) ->
  rel P Q' F' (bind m1 k1) (bind m2 k2).
Proof.
  intros A C P Q F Q' F' m1 m2 k1 k2 Hm Hk U1 U2 G1 G2 s1 s2 H. specialize (Hm s1 s2 H). unfold bind. unfold out in Hm.
  destruct (m1 s1) as [o1 q1], (m2 s2) as [o2 q2]. cbn [fst snd] in Hm.
  destruct o1 as [a1| | | | |], o2 as [a2| | | | |]; try exact Hm; [destruct Hm as [[<- Hq]|(Hg & Fa & Fb)]; [exact (Hk a1 q1 q2 Hq)|exact (out_gone Q' F' _ _ _ _ (U1 _ Fa) (U2 _ Fb) Hg)]|..];
  unfold out; cbn [fst snd];
  match goal with
  | |- context [k1 ?a ?q] => pose proof (grw_sp (k1 a) q (G1 a)) as Gr; destruct (k1 a q) as [o q']; cbn [fst snd] in *
  | |- context [k2 ?a ?q] => pose proof (grw_sp (k2 a) q (G2 a)) as Gr; destruct (k2 a q) as [o q']; cbn [fst snd] in *
  end; pose proof (begins_trans _ _ _ Hm Gr); destruct o; auto.
Qed.

(** The states of the two runs while the channel exists. *)
Definition likec (c1 c2 : client) : Prop := okc c1 /\ settings c1 = settings c2 /\ c_conn c1 = c_conn c2 /\
  exists b1 b2, c_bio c1 = Some b1 /\ c_bio c2 = Some b2 /\ bio_id b1 = bio_id b2.
Definition likee (e1 e2 : env) : Prop := e_bread e1 = e_bread e2 /\ e_bputs e1 = e_bputs e2 /\ e_fs e1 = e_fs e2.
Definition like (R : client -> client -> Prop) (s1 s2 : st) : Prop :=
  likec (s_c s1) (s_c s2) /\ R (s_c s1) (s_c s2) /\ likee (s_e s1) (s_e s2) /\ sp s1 = sp s2.
Definition R0 (c1 c2 : client) : Prop := True.
Definition Rresp (c1 c2 : client) : Prop := c_resp c1 = c_resp c2.
Definition Rauth (c1 c2 : client) : Prop := c_auth c1 = c_auth c2.

Lemma rel_pre : forall {A} (P P' : st -> st -> Prop) (Q : A -> st -> st -> Prop) F m1 m2, (forall a b, P' a b -> P a b) -> rel P Q F m1 m2 -> rel P' Q F m1 m2.
Proof. intros A P P' Q F m1 m2 H R s1 s2 X. apply R, H, X. Qed.
Lemma rel_post : forall {A} (P : st -> st -> Prop) (Q Q' : A -> st -> st -> Prop) (F F' : A -> Prop) m1 m2,
  (forall a s t, Q a s t -> Q' a s t) -> (forall a, F a -> F' a) -> rel P Q F m1 m2 -> rel P Q' F' m1 m2.
Proof.
  intros A P Q Q' F F' m1 m2 HQ HF R s1 s2 X. specialize (R s1 s2 X). unfold out in *. destruct (fst (m1 s1)), (fst (m2 s2)); try exact R.
  destruct R as [[E q]|(G & f1 & f2)]; [left; split; [exact E|exact (HQ _ _ _ q)]|right; split; [exact G|split; apply HF; assumption]].
Qed.
Lemma rel_never : forall {A} (Q : A -> st -> st -> Prop) F m1 m2, rel (fun _ _ => False) Q F m1 m2.
Proof. intros A Q F m1 m2 s1 s2 []. Qed.
Lemma rel_ret : forall {A} (P : st -> st -> Prop) (Q : A -> st -> st -> Prop) F a, (forall s t, P s t -> Q a s t) -> rel P Q F (ret a) (ret a).
Proof. intros A P Q F a H s1 s2 X. left. split; [reflexivity|]. apply H, X. Qed.
Lemma like_sp : forall (R : client -> client -> Prop) s1 s2, like R s1 s2 -> sp s1 = sp s2.
Proof. intros R s1 s2 (_ & _ & _ & E). exact E. Qed.
(** The first run stops. *)
Lemma rel_stop1 : forall {A} (R : client -> client -> Prop) (Q : A -> st -> st -> Prop) F o m2, (forall a, o <> Done a) -> grw m2 -> rel (like R) Q F (fun s => (o, s)) m2.
Proof.
  intros A R Q F o m2 N G s1 s2 L. pose proof (grw_sp m2 s2 G) as B0. rewrite <- (like_sp _ _ _ L) in B0. unfold out. cbn [fst snd].
  destruct o; [exfalso; exact (N a eq_refl)|..]; destruct (fst (m2 s2)); auto.
Qed.
Lemma rel_stop2 : forall {A} (R : client -> client -> Prop) (Q : A -> st -> st -> Prop) F o m1, (forall a, o <> Done a) -> grw m1 -> rel (like R) Q F m1 (fun s => (o, s)).
Proof.
  intros A R Q F o m1 N G s1 s2 L. pose proof (grw_sp m1 s1 G) as B0. rewrite (like_sp _ _ _ L) in B0. unfold out. cbn [fst snd].
  destruct o; [exfalso; exact (N a eq_refl)|..]; destruct (fst (m1 s1)); auto.
Qed.
Lemma rel_lift : forall {A} (R : client -> client -> Prop) F (o : outcome A), rel (like R) (fun _ => like R) F (lift o) (lift o).
Proof.
  intros A R F o s1 s2 L. pose proof (like_sp _ _ _ L) as E. unfold out, lift. cbn [fst snd]. destruct o; [left; split; [reflexivity|exact L]| | | | |];
  left; rewrite E; apply begins_refl.
Qed.
Lemma rel_getc : forall {A} (R : client -> client -> Prop) (Q : A -> st -> st -> Prop) F (k1 k2 : client -> M A),
  (forall c1 c2, likec c1 c2 -> R c1 c2 -> rel (like R) Q F (k1 c1) (k2 c2)) -> rel (like R) Q F (bind getc k1) (bind getc k2).
Proof. intros A R Q F k1 k2 H s1 s2 L. unfold bind, getc. pose proof L as (C & X & _). exact (H _ _ C X s1 s2 L). Qed.
Lemma rel_gete : forall {A} (R : client -> client -> Prop) (Q : A -> st -> st -> Prop) F (k1 k2 : env -> M A),
  (forall c1 c2, likee c1 c2 -> rel (like R) Q F (k1 c1) (k2 c2)) -> rel (like R) Q F (bind gete k1) (bind gete k2).
Proof. intros A R Q F k1 k2 H s1 s2 L. unfold bind, gete. pose proof L as (C & X & E & _). exact (H _ _ E s1 s2 L). Qed.
Lemma rel_updc : forall (R R' : client -> client -> Prop) F f1 f2,
  (forall c1 c2, likec c1 c2 -> R c1 c2 -> likec (f1 c1) (f2 c2) /\ R' (f1 c1) (f2 c2)) -> rel (like R) (fun _ => like R') F (updc f1) (updc f2).
Proof.
  intros R R' F f1 f2 H s1 s2 (C & X & E & S0). left. split; [reflexivity|]. destruct (H _ _ C X) as [C' X']. split; [exact C'|split; [exact X'|split; [exact E|exact S0]]].
Qed.
Lemma rel_upde : forall (R : client -> client -> Prop) F f1 f2, (forall e1 e2, likee e1 e2 -> likee (f1 e1) (f2 e2)) -> rel (like R) (fun _ => like R) F (upde f1) (upde f2).
Proof. intros R F f1 f2 H s1 s2 (C & X & E & S0). left. split; [reflexivity|]. split; [exact C|split; [exact X|split; [apply H, E|exact S0]]]. Qed.
Lemma rel_emits : forall (R : client -> client -> Prop) F l1 l2, conversation l1 = conversation l2 -> rel (like R) (fun _ => like R) F (emits l1) (emits l2).
Proof.
  intros R F l1 l2 H s1 s2 (C & X & E & S0). left. split; [reflexivity|]. split; [exact C|split; [exact X|split; [exact E|]]].
  unfold sp, conversation in *. cbn. rewrite !filter_app, S0, H. reflexivity.
Qed.
Lemma rel_emit : forall (R : client -> client -> Prop) F l1 l2, conversation [l1] = conversation [l2] -> rel (like R) (fun _ => like R) F (emit l1) (emit l2).
Proof. intros R F l1 l2 H. exact (rel_emits R F [l1] [l2] H). Qed.
Definition unlogged (R : client -> client -> Prop) : Prop := forall c1 c2 a b a' b', R c1 c2 -> R (set_log a b c1) (set_log a' b' c2).
Lemma rel_addLog : forall R F i1 p1 i2 p2, unlogged R -> rel (like R) (fun _ => like R) F (addLog i1 p1) (addLog i2 p2).
Proof.
  intros R F i1 p1 i2 p2 U s1 s2 (C & X & E & S0). destruct (addLog_shape i1 p1 s1) as (l & n & E1). destruct (addLog_shape i2 p2 s2) as (l' & n' & E2).
  unfold out. rewrite E1, E2. assert (Y : sp (mkSt (set_log l n (s_c s1)) (s_e s1) (s_t s1)) = sp (mkSt (set_log l' n' (s_c s2)) (s_e s2) (s_t s2))) by exact S0.
  destruct (fst (addLog i1 p1 s1)) as [[]| | | | |], (fst (addLog i2 p2 s2)) as [[]| | | | |]; try (rewrite Y; apply begins_refl); try (left; rewrite Y; apply begins_refl).
  left. split; [reflexivity|]. split; [exact C|split; [apply U, X|split; [exact E|exact S0]]].
Qed.

Lemma u0 : unlogged R0. Proof. intros c1 c2 a b a' b' H. exact H. Qed.
Lemma u1 : unlogged Rresp. Proof. intros c1 c2 a b a' b' H. exact H. Qed.
Lemma u2 : unlogged Rauth. Proof. intros c1 c2 a b a' b' H. exact H. Qed.
#[export] Hint Resolve u0 u1 u2 : core.
Ltac ul := auto.

Lemma rel_errno : forall (R : client -> client -> Prop) F x y, (forall c1 c2 a b, R c1 c2 -> R (set_errno a c1) (set_errno b c2)) -> rel (like R) (fun _ => like R) F (setLastSocketErrNo x) (setLastSocketErrNo y).
Proof. intros R F x y H. apply rel_updc. intros c1 c2 C X. split; [exact C|apply H, X]. Qed.


Definition no {A} (a : A) : Prop := False.
Ltac gx := fail.
Ltac gg := gs; gx.
Ltac quiet_step := lazymatch goal with
  | |- rel _ _ _ (bind (logc _) _) (bind (logc _) _) => eapply (rel_bind _ _ no); [apply rel_addLog; ul|intros ?|intros ? []|intros ? []| |]
  | |- rel _ _ _ (bind (logs _) _) (bind (logs _) _) => eapply (rel_bind _ _ no); [apply rel_addLog; ul|intros ?|intros ? []|intros ? []| |]
  | |- rel _ _ _ (bind (addLog _ _) _) (bind (addLog _ _) _) => eapply (rel_bind _ _ no); [apply rel_addLog; ul|intros ?|intros ? []|intros ? []| |]
  end.

(** Reading. *)
Lemma rel_wait_bio : forall (R : client -> client -> Prop) F, rel (like R) (fun _ => like R) F wait_bio wait_bio.
Proof.
  intros R F. unfold wait_bio. apply rel_getc; intros c1 c2 C X. pose proof C as (_ & St & _ & b1 & b2 & -> & -> & Eb).
  apply rel_gete; intros e1 e2 (Er & _ & _). rewrite Er, Eb. assert (Et : c_timeout c1 = c_timeout c2) by (unfold settings in St; congruence). rewrite Et.
  destruct (wait_loop _ _ _ _) as [[o evs] rest].
  eapply (rel_bind _ _ no); [apply rel_upde| |intros ? []|intros ? []|intros; gs|intros; gs].
  - intros a b (A1 & A2 & A3). split; [reflexivity|]. split; assumption.
  - intros []. eapply (rel_bind _ _ no); [apply rel_emits; reflexivity|intros ?; apply rel_lift|intros ? []|intros ? []|intros; gs|intros; gs].
Qed.
Definition got_reply (z : Z) (s1 s2 : st) : Prop := if z =? -1 then like R0 s1 s2 else like Rresp s1 s2.
Lemma code_not : forall d, extractReturnCode (Some d) <> -1 \/ extractReturnCode (Some d) = -1.
Proof. intros d. destruct (Z.eq_dec (extractReturnCode (Some d)) (-1)); auto. Qed.
Lemma like_0 : forall (R : client -> client -> Prop) s1 s2, like R s1 s2 -> like R0 s1 s2.
Proof. intros R s1 s2 (A & _ & B0). split; [exact A|split; [exact Logic.I|exact B0]]. Qed.
Lemma rel_reply_tls : forall (R : client -> client -> Prop) F, rel (like R) got_reply F getServerReplyTLS getServerReplyTLS.
Proof.
  intros R F. unfold getServerReplyTLS. eapply (rel_bind _ _ no); [apply rel_wait_bio| |intros ? []|intros ? []|intros; gs|intros; gs].
  intros [d|]; cbv zeta.
  - eapply (rel_bind _ (fun _ => like Rresp) no); [unfold setLastServerResponse; apply rel_updc| |intros ? []|intros ? []|intros; gs|intros; gs].
    + intros c1 c2 C X. split; [exact C|reflexivity].
    + intros _. quiet_step; [|intros; gs|intros; gs]. apply rel_ret. intros s t L. unfold got_reply. destruct (_ =? -1); [exact (like_0 _ _ _ L)|exact L].
  - apply rel_ret. intros s t L. cbn. exact (like_0 _ _ _ L).
Qed.
Lemma likec_kind : forall c1 c2, likec c1 c2 -> c_kind c1 <> KPlain /\ c_kind c2 = c_kind c1 /\ c_rawptr c1 = false /\ c_rawptr c2 = false /\
  c_batch c2 = c_batch c1 /\ c_conn c2 = c_conn c1 /\ c_cred c2 = c_cred c1 /\ c_timeout c2 = c_timeout c1 /\ c_selfsigned c2 = c_selfsigned c1.
Proof. intros c1 c2 ([K Rw] & St & Cn & _). unfold settings in St. inversion St. repeat split; congruence. Qed.
Lemma rel_reply : forall (R : client -> client -> Prop) F, rel (like R) got_reply F getServerReply getServerReply.
Proof.
  intros R F. unfold getServerReply. apply rel_getc; intros c1 c2 C X. destruct (likec_kind _ _ C) as (K & E & _). rewrite E.
  destruct (c_kind c1); [contradiction| |]; apply rel_reply_tls.
Qed.

(** Writing. *)
Definition unread (R : client -> client -> Prop) : Prop := unlogged R /\ forall c1 c2 a b, R c1 c2 -> R (set_errno a c1) (set_errno b c2).
Lemma rel_puts : forall (R : client -> client -> Prop) F b1 b2 d, bio_id b1 = bio_id b2 -> rel (like R) (fun _ => like R) F (sys_puts b1 d) (sys_puts b2 d).
Proof.
  intros R F b1 b2 d Eb. unfold sys_puts. apply rel_gete; intros e1 e2 (A1 & A2 & A3). rewrite A2, Eb. destruct (e_bputs e2) as [|r l].
  - eapply (rel_bind _ _ no); [apply rel_emit; reflexivity|intros ?; apply rel_ret; auto|intros ? []|intros ? []|intros; gs|intros; gs].
  - eapply (rel_bind _ _ no); [apply rel_upde| |intros ? []|intros ? []|intros; gs|intros; gs].
    + intros a b (B1 & B2 & B3). split; [assumption|]. split; [reflexivity|assumption].
    + intros ?. eapply (rel_bind _ _ no); [apply rel_emit; reflexivity|intros ?; apply rel_ret; auto|intros ? []|intros ? []|intros; gs|intros; gs].
Qed.
(** What cleanup does after its QUIT. *)
Definition tear_down : M unit := updc (set_conn false);; free_tls;; close_socket.
Lemma tear_down_done : forall s, okc (s_c s) -> fst (tear_down s) = Done tt /\ okc (s_c (snd (tear_down s))) /\ c_bio (s_c (snd (tear_down s))) = None /\ sp (snd (tear_down s)) = sp s.
Proof.
  intros [c e t] O. unfold tear_down, free_tls, close_socket, bind, updc, getc, emit, ret. cbn.
  destruct (c_ctx c), (c_bio c); cbn; destruct (c_sock c =? 0); cbn; (split; [reflexivity|split; [exact O|split; [reflexivity|]]]);
  unfold sp, conversation; cbn; rewrite ?filter_app; cbn; rewrite ?app_nil_r; reflexivity.
Qed.
Lemma rel_tear_down : forall (R : client -> client -> Prop), rel (like R) (fun _ _ _ => False) any tear_down tear_down.
Proof.
  intros R s1 s2 L. pose proof L as (C & _ & _ & E). pose proof C as (O1 & St & _). symmetry in St. pose proof (okc_settings _ _ St O1) as O2.
  destruct (tear_down_done s1 O1) as (D1 & P1 & N1 & S1). destruct (tear_down_done s2 O2) as (D2 & P2 & N2 & S2).
  unfold out. rewrite D1, D2. right. split; [|split; exact Logic.I]. split; [exact P1|split; [exact P2|split; [exact N1|split; [exact N2|congruence]]]].
Qed.
Lemma mute_tear_down : mute false any tear_down.
Proof. unfold tear_down, close_socket. ms. apply mute_free. Qed.
Lemma grw_tear_down : grw tear_down.
Proof. unfold tear_down, free_tls, close_socket. gs. Qed.
Lemma rel_cmd_with : forall (R : client -> client -> Prop) cl1 cl2 d err, unread R -> rel (like R0) (fun _ _ _ => False) any cl1 cl2 -> mute false any cl1 -> mute false any cl2 -> grw cl1 -> grw cl2 ->
  rel (like R) (fun z s1 s2 => z = 0 /\ like R s1 s2) (eq err) (sendCommandPtr_with cl1 d err) (sendCommandPtr_with cl2 d err).
Proof.
  intros R cl1 cl2 d err [U1 U2] H M1 M2 G1 G2. unfold sendCommandPtr_with. apply rel_getc; intros c1 c2 C X. destruct (likec_kind _ _ C) as (K & E & Q1 & Q2 & _). rewrite E, Q1, Q2.
  assert (W : rel (like R) (fun z s1 s2 => z = 0 /\ like R s1 s2) (eq err) (sendCommandTLS_with cl1 d err) (sendCommandTLS_with cl2 d err)).
  { unfold sendCommandTLS_with. apply rel_getc; intros c1' c2' C' X'. destruct C' as (_ & _ & _ & b1 & b2 & -> & -> & Eb).
    eapply (rel_bind _ _ no); [apply rel_puts; exact Eb| |intros ? []|intros ? []| |].
    2,3: intros r; gs; assumption.
    intros r. assert (Z0 : rel (like R) (fun z s1 s2 => z = 0 /\ like R s1 s2) (eq err) (ret 0) (ret 0)) by (apply rel_ret; auto).
    destruct r; try exact Z0.
    - eapply (rel_bind _ _ no); [apply rel_errno; exact U2| |intros ? []|intros ? []| |].
      2,3: intros ?; gs; assumption.
      intros ?. eapply (rel_bind _ _ any); [eapply rel_pre; [|exact H]; intros ? ?; apply like_0|intros ?; apply rel_never| | | |]; intros; first [gs; fail|apply mute_ret; reflexivity].
    - apply rel_stop1; [discriminate|gs]. }
  destruct (c_kind c1); [contradiction| |]; exact W.
Qed.
Lemma ur0 : unread R0. Proof. split; [apply u0|intros c1 c2 a b H; exact H]. Qed.
Lemma rel_cleanup_f : forall f1 f2, rel (like R0) (fun _ _ _ => False) any (cleanup_f f1) (cleanup_f f2).
Proof.
  induction f1 as [|f1 IH]; intros f2. { apply rel_stop1; [discriminate|apply grw_cleanup_f]. }
  destruct f2 as [|f2]. { apply rel_stop2; [discriminate|apply grw_cleanup_f]. }
  cbn [cleanup_f]. apply rel_getc; intros c1 c2 C X. destruct (likec_kind _ _ C) as (K & E & Q1 & Q2 & Eb & Ec & _). rewrite E, Eb, Ec.
  assert (W : rel (like R0) (fun _ _ _ => False) any
    ((if c_batch c1 && c_conn c1 then _ <- sendQuit_with (cleanup_f f1);; ret tt else ret tt);; tear_down)
    ((if c_batch c1 && c_conn c1 then _ <- sendQuit_with (cleanup_f f2);; ret tt else ret tt);; tear_down)).
  { eapply (rel_bind _ (fun _ => like R0) any); [|intros ?; apply rel_tear_down|intros; apply mute_tear_down|intros; apply mute_tear_down|intros; apply grw_tear_down|intros; apply grw_tear_down].
    destruct (c_batch c1 && c_conn c1); [|apply rel_ret; auto]. unfold sendQuit_with.
    eapply (rel_bind _ _ any); [|intros a; apply rel_ret; intros s t Y; exact Y|intros; ms|intros; ms|intros; gs|intros; gs].
    quiet_step; [|intros; apply grw_cmd_with, grw_cleanup_f|intros; apply grw_cmd_with, grw_cleanup_f].
    eapply rel_post; [| |apply rel_cmd_with; [exact ur0|apply IH|apply mute_cleanup_f|apply mute_cleanup_f|apply grw_cleanup_f|apply grw_cleanup_f]].
    - intros z s t [_ L]. exact L.
    - intros z _. exact Logic.I. }
  destruct (c_kind c1); [contradiction| |]; exact W.
Qed.
Lemma rel_cleanup : forall (R : client -> client -> Prop), rel (like R) (fun _ _ _ => False) any cleanup cleanup.
Proof. intros R s1 s2 L. unfold cleanup. apply rel_cleanup_f. exact (like_0 _ _ _ L). Qed.
Lemma rel_cmd : forall (R : client -> client -> Prop) d err, unread R -> rel (like R) (fun z s1 s2 => z = 0 /\ like R s1 s2) (eq err) (sendCommandPtr d err) (sendCommandPtr d err).
Proof. intros R d err U. apply rel_cmd_with; [exact U|apply rel_cleanup|apply mute_cleanup|apply mute_cleanup|apply grw_cleanup|apply grw_cleanup]. Qed.

Definition bad (err tmo z : Z) : Prop := z = err \/ z = tmo.
Lemma rel_feedback : forall (R : client -> client -> Prop) d err tmo, unread R -> rel (like R) (fun _ => like Rresp) (bad err tmo) (sendFeedback d err tmo) (sendFeedback d err tmo).
Proof.
  intros R d err tmo [U1 U2]. unfold sendFeedback. apply rel_getc; intros c1 c2 C X. destruct (likec_kind _ _ C) as (K & E & _). rewrite E.
  assert (W : rel (like R) (fun _ => like Rresp) (bad err tmo) (sendFeedbackTLS d err tmo) (sendFeedbackTLS d err tmo)).
  { unfold sendFeedbackTLS. apply rel_getc; intros c1' c2' C' X'. destruct C' as (_ & _ & _ & b1 & b2 & -> & -> & Eb).
    eapply (rel_bind _ _ no); [apply rel_puts; exact Eb| |intros ? []|intros ? []| |].
    2,3: intros r; gs; first [apply grw_cleanup|apply grw_reply].
    intros r.
    assert (Z0 : rel (like R) (fun _ => like Rresp) (bad err tmo)
      (code <- getServerReply;; if negb (code =? -1) then ret code else cleanup;; ret tmo) (code <- getServerReply;; if negb (code =? -1) then ret code else cleanup;; ret tmo)).
    { eapply (rel_bind _ _ no); [apply rel_reply| |intros ? []|intros ? []| |].
      2,3: intros; gs; apply grw_cleanup.
      intros z. unfold got_reply. destruct (z =? -1); cbn [negb]; [|apply rel_ret; auto].
      eapply (rel_bind _ _ any); [apply rel_cleanup|intros ?; apply rel_never| | | |]; intros; first [gs; fail|apply mute_ret; right; reflexivity]. }
    destruct r; try exact Z0.
    - eapply (rel_bind _ _ no); [apply rel_errno; exact U2| |intros ? []|intros ? []| |].
      2,3: intros ?; gs; apply grw_cleanup.
      intros ?. eapply (rel_bind _ _ any); [apply rel_cleanup|intros ?; apply rel_never| | | |]; intros; first [gs; fail|apply mute_ret; left; reflexivity].
    - apply rel_stop1; [discriminate|gs]. }
  destruct (c_kind c1); [contradiction| |]; exact W.
Qed.
Lemma rel_fb : forall (R : client -> client -> Prop) d err tmo, unread R -> rel (like R) (fun _ => like Rresp) (bad err tmo) (sendFeedbackPtr d err tmo) (sendFeedbackPtr d err tmo).
Proof.
  intros R d err tmo U. unfold sendFeedbackPtr. apply rel_getc; intros c1 c2 C X. destruct (likec_kind _ _ C) as (K & E & Q1 & Q2 & _). rewrite Q1, Q2.
  apply rel_feedback, U.
Qed.
Lemma rel_fb0 : forall d err tmo, rel (like R0) (fun _ => like R0) (bad err tmo) (sendFeedbackPtr d err tmo) (sendFeedbackPtr d err tmo).
Proof. intros. eapply rel_post; [| |apply rel_fb, ur0]; [intros a s t; apply like_0|auto]. Qed.

(** EHLO: afterwards the two clients agree on the mechanisms. *)
Definition identified (z : Z) (s1 s2 : st) : Prop := if z =? 250 then like Rauth s1 s2 else like R0 s1 s2.
Lemma rel_ehlo_loop : forall f1 f2 R t o, t <> 250 -> rel (like R) identified no (ehlo_loop f1 t o) (ehlo_loop f2 t o).
Proof.
  assert (D : forall R o, rel (like R) identified no (updc (set_auth (extractAuthenticationOptions (Some o)));; ret 250) (updc (set_auth (extractAuthenticationOptions (Some o)));; ret 250)).
  { intros R o. eapply (rel_bind _ (fun _ => like Rauth) no); [apply rel_updc| |intros ? []|intros ? []|intros; gs|intros; gs].
    - intros c1 c2 C X. split; [exact C|reflexivity].
    - intros ?. apply rel_ret. intros s t L. exact L. }
  induction f1 as [|f1 IH]; intros f2 R t o T.
  { destruct f2; cbn [ehlo_loop]; destruct (containsAllOptions o); try apply D; (apply rel_stop1; [discriminate|]); gs; first [apply grw_reply|apply grw_ehlo_loop]. }
  destruct f2 as [|f2]; cbn [ehlo_loop]; destruct (containsAllOptions o); try apply D.
  { apply rel_stop2; [discriminate|]. gs; first [apply grw_reply|apply grw_ehlo_loop]. }
  eapply (rel_bind _ _ no); [apply rel_reply| |intros ? []|intros ? []| |].
  2,3: intros; gs; apply grw_ehlo_loop.
  intros z. unfold got_reply. destruct (z =? -1) eqn:Ez.
  { apply rel_ret. intros s u L. unfold identified. replace (t =? 250) with false by lia. exact L. }
  destruct (negb (z =? 250)) eqn:E2.
  { apply rel_ret. intros s u L. unfold identified. replace (z =? 250) with false by lia. exact (like_0 _ _ _ L). }
  apply rel_getc; intros c1 c2 C X. unfold Rresp in X. rewrite X. destruct (c_resp c2); [apply IH; exact T|].
  apply rel_stop1; [discriminate|gs].
Qed.
Lemma rel_ehlo : forall (R : client -> client -> Prop) err tmo, unread R -> err <> 250 -> tmo <> 250 -> rel (like R) identified (bad err tmo) (ehlo_with err tmo) (ehlo_with err tmo).
Proof.
  intros R err tmo U E1 E2. pose proof U as [Ul _]. unfold ehlo_with. quiet_step; [|intros; gs; first [apply grw_feedback|apply grw_ehlo_loop]|intros; gs; first [apply grw_feedback|apply grw_ehlo_loop]].
  eapply (rel_bind _ _ (bad err tmo)); [apply rel_feedback; exact U| | | | |].
  4,5: intros; gs; apply grw_ehlo_loop.
  2,3: intros z [->| ->]; [replace (err =? 250) with false by lia; apply mute_ret; left; reflexivity|replace (tmo =? 250) with false by lia; apply mute_ret; right; reflexivity].
  intros z. destruct (negb (z =? 250)) eqn:Ez.
  { apply rel_ret. intros s u L. unfold identified. replace (z =? 250) with false by lia. exact (like_0 _ _ _ L). }
  apply rel_getc; intros c1 c2 C X. unfold Rresp in X. rewrite X. destruct (c_resp c2); [|apply rel_stop1; [discriminate|gs]].
  apply rel_gete; intros e1 e2 _. eapply rel_post; [| |apply rel_ehlo_loop; exact E2]; [auto|intros ? []].
Qed.
