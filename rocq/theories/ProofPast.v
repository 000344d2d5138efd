(** What earlier calls left in a client is not used by later ones. *)

From Coq Require Import Ascii String List NArith ZArith Bool Lia ZifyBool ZifyNat ZifyN.
From Verif Require Import Base Lib ModelUtil ModelBase64 ModelAddress ModelAttachment ModelMessage ModelReply ModelErrors ModelState ModelClient ModelWorld
  SpecPast.
Import ListNotations.
Open Scope Z_scope.

(** The same client with another last answer, error number and mechanisms. *)
Definition hist (r : option str) (n : Z) (a : option authopts) (c : client) : client := set_resp r (set_errno n (set_auth a c)).
Definition R0 (c1 c2 : client) : Prop := True.
Definition Rresp (c1 c2 : client) : Prop := c_resp c1 = c_resp c2.
Definition Rauth (c1 c2 : client) : Prop := c_auth c1 = c_auth c2.
Definition like (R : client -> client -> Prop) (s1 s2 : st) : Prop :=
  (exists r n a, s_c s2 = hist r n a (s_c s1)) /\ R (s_c s1) (s_c s2) /\ s_e s1 = s_e s2 /\ s_t s1 = s_t s2.
Definition rel {A} (P : st -> st -> Prop) (Q : A -> st -> st -> Prop) (m1 m2 : M A) : Prop :=
  forall s1 s2, P s1 s2 -> fst (m1 s1) = fst (m2 s2) /\ like R0 (snd (m1 s1)) (snd (m2 s2)) /\ forall a, fst (m1 s1) = Done a -> Q a (snd (m1 s1)) (snd (m2 s2)).
(** The part of the code that reads none of the three. *)
Definition two {A} (m1 m2 : M A) : Prop := rel (like R0) (fun _ => like R0) m1 m2.
Definition ob {A} (m : M A) : Prop := two m m.

Lemma like_0 : forall (R : client -> client -> Prop) s1 s2, like R s1 s2 -> like R0 s1 s2.
Proof. intros R s1 s2 (A & _ & B0). split; [exact A|split; [exact Logic.I|exact B0]]. Qed.
Lemma rel_bind : forall {A C} P (Q : A -> st -> st -> Prop) (Q' : C -> st -> st -> Prop) (m1 m2 : M A) (k1 k2 : A -> M C),
  rel P Q m1 m2 -> (forall a, rel (Q a) Q' (k1 a) (k2 a)) -> rel P Q' (bind m1 k1) (bind m2 k2).
Proof.
  intros A C P Q Q' m1 m2 k1 k2 Hm Hk s1 s2 H. destruct (Hm s1 s2 H) as (E & L & D). unfold bind.
  destruct (m1 s1) as [o1 q1], (m2 s2) as [o2 q2]. cbn [fst snd] in *. subst o2.
  destruct o1 as [a| | | | |]; cbn [fst snd]; try (split; [reflexivity|split; [exact L|discriminate]]). exact (Hk a q1 q2 (D a eq_refl)).
Qed.
Lemma rel_pre : forall {A} (P P' : st -> st -> Prop) (Q : A -> st -> st -> Prop) m1 m2, (forall a b, P' a b -> P a b) -> rel P Q m1 m2 -> rel P' Q m1 m2.
Proof. intros A P P' Q m1 m2 H R s1 s2 X. apply R, H, X. Qed.
Lemma rel_post : forall {A} P (Q Q' : A -> st -> st -> Prop) m1 m2, (forall a s t, Q a s t -> Q' a s t) -> rel P Q m1 m2 -> rel P Q' m1 m2.
Proof. intros A P Q Q' m1 m2 H R s1 s2 X. destruct (R s1 s2 X) as (E & L & D). split; [exact E|split; [exact L|]]. intros a Ha. apply H, D, Ha. Qed.
Lemma rel_ret : forall {A} (P : st -> st -> Prop) (Q : A -> st -> st -> Prop) a, (forall s t, P s t -> like R0 s t /\ Q a s t) -> rel P Q (ret a) (ret a).
Proof. intros A P Q a H s1 s2 X. destruct (H s1 s2 X) as [L q]. split; [reflexivity|split; [exact L|]]. intros b E. injection E as <-. exact q. Qed.
Lemma rel_stop : forall {A} (R : client -> client -> Prop) (Q : A -> st -> st -> Prop) o, (forall a, o <> Done a) -> rel (like R) Q (fun s => (o, s)) (fun s => (o, s)).
Proof. intros A R Q o N s1 s2 X. split; [reflexivity|split; [exact (like_0 _ _ _ X)|]]. intros a E. exfalso. exact (N a E). Qed.
Lemma rel_getc : forall {A} (R : client -> client -> Prop) (Q : A -> st -> st -> Prop) (k : client -> M A),
  (forall c r n a, R c (hist r n a c) -> rel (like R) Q (k c) (k (hist r n a c))) -> rel (like R) Q (bind getc k) (bind getc k).
Proof. intros A R Q k H s1 s2 L. pose proof L as ((r & n & a & E) & X & _). unfold bind, getc. rewrite E in *. exact (H _ r n a X s1 s2 L). Qed.
Lemma rel_gete : forall {A} (R : client -> client -> Prop) (Q : A -> st -> st -> Prop) (k : env -> M A), (forall e, rel (like R) Q (k e) (k e)) -> rel (like R) Q (bind gete k) (bind gete k).
Proof. intros A R Q k H s1 s2 L. pose proof L as (_ & _ & E & _). unfold bind, gete. rewrite <- E. exact (H _ s1 s2 L). Qed.
Lemma rel_updc : forall (R R' : client -> client -> Prop) f, (forall c r n a, R c (hist r n a c) -> exists r' n' a', f (hist r n a c) = hist r' n' a' (f c) /\ R' (f c) (f (hist r n a c))) ->
  rel (like R) (fun _ => like R') (updc f) (updc f).
Proof.
  intros R R' f H s1 s2 L. pose proof L as ((r & n & a & E) & X & Ee & Et). rewrite E in X. destruct (H _ r n a X) as (r' & n' & a' & E' & X').
  assert (L' : like R' (snd (updc f s1)) (snd (updc f s2))). { unfold updc. cbn [snd]. split; [exists r', n', a'; cbn [s_c]; rewrite E; exact E'|]. split; [cbn [s_c]; rewrite E; exact X'|split; [exact Ee|exact Et]]. }
  split; [reflexivity|]. split; [exact (like_0 _ _ _ L')|]. intros ? _. exact L'.
Qed.
Lemma two_lift : forall {A} (R : client -> client -> Prop) (o : outcome A), rel (like R) (fun _ => like R) (lift o) (lift o).
Proof. intros A R o s1 s2 L. split; [reflexivity|split; [exact (like_0 _ _ _ L)|]]. intros a _. exact L. Qed.
Lemma ob_bind : forall {A C} (m : M A) (k1 k2 : A -> M C), ob m -> (forall a, two (k1 a) (k2 a)) -> two (bind m k1) (bind m k2).
Proof. intros A C m k1 k2 H K. exact (rel_bind _ _ _ _ _ _ _ H K). Qed.
Lemma ob_getc : forall {A} (k : client -> M A), (forall c r n a, two (k c) (k (hist r n a c))) -> two (bind getc k) (bind getc k).
Proof. intros A k H. apply rel_getc. intros c r n a _. apply H. Qed.
Lemma ob_gete : forall {A} (k : env -> M A), (forall e, ob (k e)) -> two (bind gete k) (bind gete k).
Proof. intros A k H. apply rel_gete, H. Qed.
Lemma ob_ret : forall {A} (a : A), two (ret a) (ret a).
Proof. intros A a. apply rel_ret. auto. Qed.
Lemma ob_lift : forall {A} (o : outcome A), two (lift o) (lift o).
Proof. intros. apply two_lift. Qed.
Lemma ob_ub : forall {A} u, two (@fail_ub A u) (@fail_ub A u). Proof. intros. apply rel_stop. discriminate. Qed.
Lemma ob_blocked : forall {A}, two (@blocked A) (@blocked A). Proof. intros. apply rel_stop. discriminate. Qed.
Lemma ob_diverge : forall {A}, two (@diverge A) (@diverge A). Proof. intros. apply rel_stop. discriminate. Qed.
Lemma ob_killed : forall {A}, two (@killed A) (@killed A). Proof. intros. apply rel_stop. discriminate. Qed.
Lemma ob_upde : forall f, two (upde f) (upde f).
Proof.
  intros f s1 s2 (A & X & E & T). assert (L : like R0 (snd (upde f s1)) (snd (upde f s2))) by (split; [exact A|split; [exact X|split; [cbn; rewrite E; reflexivity|exact T]]]).
  split; [reflexivity|split; [exact L|]]. intros ? _. exact L.
Qed.
Lemma ob_emits : forall l, two (emits l) (emits l).
Proof.
  intros l s1 s2 (A & X & E & T). assert (L : like R0 (snd (emits l s1)) (snd (emits l s2))) by (split; [exact A|split; [exact X|split; [exact E|cbn; rewrite T; reflexivity]]]).
  split; [reflexivity|split; [exact L|]]. intros ? _. exact L.
Qed.
Lemma ob_emit : forall l, two (emit l) (emit l). Proof. intros l. exact (ob_emits [l]). Qed.
Lemma ob_updc : forall f, (forall c r n a, exists r' n' a', f (hist r n a c) = hist r' n' a' (f c)) -> two (updc f) (updc f).
Proof. intros f H. apply rel_updc. intros c r n a _. destruct (H c r n a) as (r' & n' & a' & E). exists r', n', a'. split; [exact E|exact Logic.I]. Qed.

Ltac fields := cbn [hist set_resp set_errno set_auth c_kind c_conn c_server c_port c_batch c_log c_logsize c_timeout c_cred c_sock c_keep c_rawptr c_bio c_ctx c_selfsigned].
Ltac setter := apply ob_updc; intros [] ? ? ?; eexists; eexists; eexists; cbv [hist set_conn set_server set_port set_batch set_log set_resp set_timeout set_errno set_auth set_cred set_sock set_keep set_bio set_ctx set_selfsigned  c_kind c_conn c_server c_port c_batch c_log c_logsize c_resp c_timeout c_errno c_auth c_cred c_sock c_keep c_rawptr c_bio c_ctx c_selfsigned]; reflexivity.
Ltac known := fail.
Ltac sb := repeat (lazymatch goal with
  | |- ob _ => unfold ob
  | |- two (bind getc _) (bind getc _) => apply ob_getc; intros ? ? ? ?; fields
  | |- two (bind gete _) (bind gete _) => apply ob_gete; intros ?
  | |- two (bind _ _) (bind _ _) => apply ob_bind; [|intros ?]
  | |- two (ret _) (ret _) => apply ob_ret
  | |- two (lift _) (lift _) => apply ob_lift
  | |- two (fail_ub _) (fail_ub _) => apply ob_ub
  | |- two blocked blocked => apply ob_blocked
  | |- two diverge diverge => apply ob_diverge
  | |- two killed killed => apply ob_killed
  | |- two (upde _) (upde _) => apply ob_upde
  | |- two (emit _) (emit _) => apply ob_emit
  | |- two (emits _) (emits _) => apply ob_emits
  | |- two (updc _) (updc _) => setter
  | |- two (if ?b then _ else _) (if ?b then _ else _) => destruct b
  | |- two (match ?x with _ => _ end) (match ?x with _ => _ end) => destruct x
  | |- two (let _ := _ in _) _ => cbv zeta
  end).

Lemma ob_addLog : forall i p, ob (addLog i p).
Proof. intros i p. unfold addLog. sb. Qed.

Lemma ob_errno : forall n, ob (setLastSocketErrNo n).
Proof. intros n. unfold setLastSocketErrNo. sb. Qed.
Lemma ob_log_errno : forall n, ob (log_errno n).
Proof. intros n. unfold log_errno. sb; first [apply ob_errno|apply ob_addLog]. Qed.
Ltac sys := sb; lazymatch goal with
  | |- two (logc _) _ => apply ob_addLog
  | |- two (logs _) _ => apply ob_addLog
  | |- two (addLog _ _) _ => apply ob_addLog
  | |- two (log_errno _) _ => apply ob_log_errno
  | |- two (setLastSocketErrNo _) _ => apply ob_errno
  end.
Lemma ob_fcntl : forall m, ob (sys_fcntl m).
Proof. intros m. unfold sys_fcntl. sb. Qed.
Lemma ob_nonblocking : ob setSocketToNonBlocking.
Proof. unfold setSocketToNonBlocking. sb; first [apply ob_fcntl|apply ob_log_errno]. Qed.
Lemma ob_blocking : ob setSocketToBlocking.
Proof. unfold setSocketToBlocking. sb; first [apply ob_fcntl|apply ob_log_errno]. Qed.
Lemma ob_host : forall n, ob (sys_gethostbyname n).
Proof. intros n. unfold sys_gethostbyname. sb. Qed.
Lemma ob_connect : ob sys_connect.
Proof. unfold sys_connect. sb. Qed.
Lemma ob_wait_connect : ob wait_connect.
Proof. unfold wait_connect. sb; apply ob_log_errno. Qed.
Lemma ob_init : ob initializeSessionPOSIX.
Proof.
  unfold initializeSessionPOSIX. sb; lazymatch goal with
  | |- two (log_errno _) _ => apply ob_log_errno
  | |- two (logc _) _ => apply ob_addLog
  | |- two setSocketToNonBlocking _ => apply ob_nonblocking
  | |- two setSocketToBlocking _ => apply ob_blocking
  | |- two (sys_gethostbyname _) _ => apply ob_host
  | |- two sys_connect _ => apply ob_connect
  | |- two wait_connect _ => apply ob_wait_connect
  end.
Qed.
Lemma ob_greeting : forall r, ob (greeting_result r).
Proof. intros r. unfold greeting_result. sb; apply ob_addLog. Qed.
Lemma ob_greetings : ob checkServerGreetings.
Proof. unfold checkServerGreetings. sb. all: try apply ob_greeting. Qed.
Lemma ob_wait_bio : ob wait_bio.
Proof. unfold wait_bio, wait_null_bio. sb. Qed.
Lemma ob_greetings_tls : ob checkServerGreetingsTLS.
Proof. unfold checkServerGreetingsTLS. sb; [apply ob_wait_bio|apply ob_greeting]. Qed.

(** Replies: unless the code is -1, both clients hold the answer. *)
Definition got_reply (z : Z) (s1 s2 : st) : Prop := if z =? -1 then like R0 s1 s2 else like Rresp s1 s2.
Lemma rel_addLog : forall i p, rel (like Rresp) (fun _ => like Rresp) (addLog i p) (addLog i p).
Proof.
  intros i p s1 s2 L. destruct (ob_addLog i p s1 s2 (like_0 _ _ _ L)) as (E & L0 & _). split; [exact E|split; [exact L0|]]. intros a D.
  destruct L0 as (H & _ & L1). split; [exact H|]. split; [|exact L1]. destruct L as (_ & X & _). unfold Rresp in *.
  assert (K : forall s, c_resp (s_c (snd (addLog i p s))) = c_resp (s_c s)).
  { intros s. unfold addLog, bind, getc, lift, updc, fail_ub. cbv zeta. repeat match goal with |- context [match ?x with _ => _ end] => destruct x end; reflexivity. }
  rewrite !K. exact X.
Qed.
Lemma rel_answered : forall d, rel (like R0) got_reply (setLastServerResponse d;; logs d;; ret (extractReturnCode (Some d))) (setLastServerResponse d;; logs d;; ret (extractReturnCode (Some d))).
Proof.
  intros d. apply (rel_bind _ (fun _ => like Rresp)).
  - apply rel_updc. intros [] r n a _. eexists. exists n, a. split; reflexivity.
  - intros _. apply (rel_bind _ (fun _ => like Rresp)); [apply rel_addLog|]. intros ?; cbv beta. apply rel_ret. intros s t L. split; [exact (like_0 _ _ _ L)|].
    unfold got_reply. destruct (_ =? -1); [exact (like_0 _ _ _ L)|exact L].
Qed.
Lemma rel_noreply : rel (like R0) got_reply (ret (-1)) (ret (-1)).
Proof. apply rel_ret. intros s t L. split; exact L. Qed.
Lemma rel_raw_reply : rel (like R0) got_reply getRawCommandReply getRawCommandReply.
Proof.
  unfold getRawCommandReply. eapply rel_bind; [apply ob_nonblocking|]. intros nb. apply rel_getc. intros c r n a _. apply rel_gete. intros e. fields.
  destruct (raw_loop _ _ _ _ _ _) as [[o evs] rest]. eapply rel_bind; [apply ob_upde|]. intros ?; cbv beta. eapply rel_bind; [apply ob_emits|]. intros ?; cbv beta.
  eapply rel_bind; [apply ob_lift|]. intros [[wait got] full]. eapply rel_bind; [apply ob_blocking|]. intros ?; cbv beta.
  destruct (_ || _); [apply rel_answered|apply rel_noreply].
Qed.
Lemma rel_reply_tls : rel (like R0) got_reply getServerReplyTLS getServerReplyTLS.
Proof. unfold getServerReplyTLS. eapply rel_bind; [apply ob_wait_bio|]. intros [d|]; [apply rel_answered|apply rel_noreply]. Qed.
Lemma rel_reply : rel (like R0) got_reply getServerReply getServerReply.
Proof. unfold getServerReply. apply rel_getc. intros c r n a _. fields. destruct (c_kind c); [apply rel_raw_reply|apply rel_reply_tls|apply rel_reply_tls]. Qed.
Lemma got_0 : forall z s t, got_reply z s t -> like R0 s t.
Proof. intros z s t H. unfold got_reply in H. destruct (z =? -1); [exact H|exact (like_0 _ _ _ H)]. Qed.

(** Commands. *)
Lemma ob_send : forall d, ob (sys_send d).
Proof. intros d. unfold sys_send. sb. Qed.
Lemma ob_puts : forall b d, ob (sys_puts b d).
Proof. intros b d. unfold sys_puts. sb. Qed.
Lemma ob_cmd_with : forall cl d err, ob cl -> ob (sendCommandPtr_with cl d err).
Proof.
  intros cl d err H. unfold sendCommandPtr_with, sendRaw2_with, sendCommandTLS_with. sb; first [apply ob_send|apply ob_puts|apply ob_errno|exact H].
Qed.
Lemma ob_cleanup_f : forall f, ob (cleanup_f f).
Proof.
  induction f as [|f IH]; cbn [cleanup_f]; [apply ob_diverge|]. unfold sendQuit_with, close_socket, free_tls. sb; first [apply ob_addLog|apply ob_cmd_with, IH].
Qed.
Lemma ob_cleanup : ob cleanup.
Proof. intros s1 s2 L. unfold cleanup. pose proof L as (_ & _ & E & _). rewrite <- E. exact (ob_cleanup_f _ s1 s2 L). Qed.
Lemma ob_cmd : forall d err, ob (sendCommandPtr d err).
Proof. intros. apply ob_cmd_with, ob_cleanup. Qed.
Lemma ob_raw2 : forall d err, ob (sendRaw2 d err).
Proof. intros. unfold sendRaw2, sendRaw2_with. sb; first [apply ob_send|apply ob_errno|apply ob_cleanup]. Qed.
Definition told (err tmo z : Z) (s1 s2 : st) : Prop := like R0 s1 s2 /\ (z <> err -> z <> tmo -> like Rresp s1 s2).
Lemma told_0 : forall err tmo z s t, told err tmo z s t -> like R0 s t. Proof. intros err tmo z s t [L _]. exact L. Qed.
Lemma rel_failed : forall err tmo z, z = err \/ z = tmo -> rel (like R0) (told err tmo) (ret z) (ret z).
Proof. intros err tmo z H. apply rel_ret. intros s t L. split; [exact L|]. split; [exact L|]. intros. destruct H; contradiction. Qed.
Lemma rel_after_reply : forall err tmo m, rel (like R0) got_reply m m -> rel (like R0) (told err tmo)
  (code <- m;; if negb (code =? -1) then ret code else cleanup;; ret tmo) (code <- m;; if negb (code =? -1) then ret code else cleanup;; ret tmo).
Proof.
  intros err tmo m H. eapply rel_bind; [exact H|]. intros z. unfold got_reply. destruct (z =? -1); cbn [negb].
  - eapply rel_bind; [apply ob_cleanup|]. intros ?; cbv beta. apply rel_failed. auto.
  - apply rel_ret. intros s t L. split; [exact (like_0 _ _ _ L)|]. split; [exact (like_0 _ _ _ L)|]. auto.
Qed.
Lemma rel_raw3 : forall d err tmo, rel (like R0) (told err tmo) (sendRaw3 d err tmo) (sendRaw3 d err tmo).
Proof.
  intros d err tmo. unfold sendRaw3. eapply rel_bind; [apply ob_raw2|]. intros z. destruct (negb _); [apply rel_failed; auto|]. apply rel_after_reply, rel_raw_reply.
Qed.
Lemma rel_feedback : forall d err tmo, rel (like R0) (told err tmo) (sendFeedback d err tmo) (sendFeedback d err tmo).
Proof.
  intros d err tmo. unfold sendFeedback. apply rel_getc. intros c r n a _. fields.
  assert (W : rel (like R0) (told err tmo) (sendFeedbackTLS d err tmo) (sendFeedbackTLS d err tmo)).
  { unfold sendFeedbackTLS. apply rel_getc. intros c' r' n' a' _. fields. destruct (c_bio c') as [b|]; [|apply rel_raw3].
    eapply rel_bind; [apply ob_puts|]. intros [| |er|]; try (apply rel_after_reply, rel_reply).
    - eapply rel_bind; [apply ob_errno|]. intros ?; cbv beta. eapply rel_bind; [apply ob_cleanup|]. intros ?; cbv beta. apply rel_failed. auto.
    - apply rel_stop. discriminate. }
  destruct (c_kind c); [apply rel_raw3|exact W|exact W].
Qed.
Lemma ob_raw3 : forall d err tmo, ob (sendRaw3 d err tmo).
Proof. intros. eapply rel_post; [|apply rel_raw3]. intros a s t. apply told_0. Qed.
Lemma ob_fb : forall d err tmo, ob (sendFeedbackPtr d err tmo).
Proof.
  intros d err tmo. unfold sendFeedbackPtr. sb; [apply ob_raw3|]. eapply rel_post; [|apply rel_feedback]. intros x s t. apply told_0.
Qed.

(** EHLO: after the code 250 both clients hold the last answer and the mechanisms. *)
Definition Rboth (c1 c2 : client) : Prop := c_resp c1 = c_resp c2 /\ c_auth c1 = c_auth c2.
Definition identified (z : Z) (s1 s2 : st) : Prop := if z =? 250 then like Rboth s1 s2 else like R0 s1 s2.
Lemma rel_ehlo_loop : forall f t o, t <> 250 -> rel (like Rresp) identified (ehlo_loop f t o) (ehlo_loop f t o).
Proof.
  assert (D : forall o, rel (like Rresp) identified (updc (set_auth (extractAuthenticationOptions (Some o)));; ret 250) (updc (set_auth (extractAuthenticationOptions (Some o)));; ret 250)).
  { intros o. apply (rel_bind _ (fun _ => like Rboth)).
    - apply rel_updc. intros [] r n a X. exists r, n. eexists. split; [reflexivity|]. split; [exact X|reflexivity].
    - intros _. apply rel_ret. intros s t L. split; [exact (like_0 _ _ _ L)|exact L]. }
  induction f as [|f IH]; intros t o T; cbn [ehlo_loop]; destruct (containsAllOptions o); try apply D. { apply rel_stop. discriminate. }
  eapply rel_bind; [apply (rel_pre (like R0)); [intros ? ?; apply like_0|apply rel_reply]|].
  intros z. unfold got_reply. destruct (z =? -1) eqn:Ez.
  { apply rel_ret. intros s u L. split; [exact L|]. unfold identified. replace (t =? 250) with false by lia. exact L. }
  destruct (negb (z =? 250)) eqn:E2.
  { apply rel_ret. intros s u L. split; [exact (like_0 _ _ _ L)|]. unfold identified. replace (z =? 250) with false by lia. exact (like_0 _ _ _ L). }
  apply rel_getc. intros c r n ao X. unfold Rresp in X. rewrite <- X. destruct (c_resp c); [apply IH; exact T|]. apply rel_stop. discriminate.
Qed.
Lemma rel_ehlo : forall err tmo, err <> 250 -> tmo <> 250 -> rel (like R0) identified (ehlo_with err tmo) (ehlo_with err tmo).
Proof.
  intros err tmo E1 E2. unfold ehlo_with. eapply rel_bind; [apply ob_addLog|]. intros ?; cbv beta. eapply rel_bind; [apply rel_feedback|]. intros z.
  destruct (negb (z =? 250)) eqn:Ez.
  { apply rel_ret. intros s u [L _]. split; [exact L|]. unfold identified. replace (z =? 250) with false by lia. exact L. }
  apply (rel_pre (like Rresp)). { intros s u [_ L]. apply L; lia. }
  apply rel_getc. intros c r n ao X. unfold Rresp in X. rewrite <- X. destruct (c_resp c); [|apply rel_stop; discriminate].
  apply rel_gete. intros e. apply rel_ehlo_loop, E2.
Qed.

(** Authentication. *)
Lemma rel_auth : rel (like Rauth) (fun _ => like R0) authenticate_if_needed authenticate_if_needed.
Proof.
  unfold authenticate_if_needed. apply rel_getc. intros c r n ao X. fields. destruct (c_cred c); [|apply rel_ret; intros s t L; split; exact (like_0 _ _ _ L)].
  apply (rel_bind _ (fun _ => like R0)).
  - unfold authenticateClient. apply rel_getc. intros c' r' n' a' X'. fields. destruct (c_cred c') as [cr|]; [|apply rel_ret; intros s t L; split; exact (like_0 _ _ _ L)].
    unfold Rauth in X'. rewrite <- X'. apply (rel_pre (like R0)); [intros ? ?; apply like_0|].
    assert (W : ob (match c_auth c' with None => fail_ub (UB_NullDeref PAuth) | Some o =>
          if ao_plain o && method_ok (cr_method cr) kPlain then authPlain cr
          else if ao_login o && method_ok (cr_method cr) kLogin then authLogin cr
          else if ao_xoauth2 o && method_ok (cr_method cr) kXOauth2 then authXOauth2 cr
          else ret CLIENT_AUTHENTICATION_METHOD_NOTSUPPORTED end)).
    { unfold authPlain, authLogin, authXOauth2. sb; first [apply ob_addLog|apply ob_fb]. }
    exact W.
  - intros z. fold (@two Z). change (ob (if negb (z =? STATUS_CODE_AUTHENTICATION_SUCCEEDED) then ret z else ret 0)). sb.
Qed.

(** TLS. *)
Lemma ob_starttls : ob startTLSNegotiation.
Proof. unfold startTLSNegotiation, fresh_id. sb; first [apply ob_addLog|apply ob_errno|apply ob_cleanup]. Qed.

(** The mail. *)
Lemma ob_from : forall l r, ob (mail_from_loop l r).
Proof. induction l as [|x l IH]; intros r; cbn [mail_from_loop]; sb; first [apply ob_addLog|apply ob_fb|apply IH]. Qed.
Lemma ob_add : forall l r, ob (addMailRecipients l r).
Proof. induction l as [|x l IH]; intros r; cbn [addMailRecipients]; sb; first [apply ob_addLog|apply ob_fb|apply IH]. Qed.
Lemma ob_rcpts : forall l, ob (recipients_loop l).
Proof. induction l as [|[k|x] l IH]; cbn [recipients_loop]; [apply ob_ret|exact IH|]. sb; first [apply ob_add|apply IH]. Qed.
Lemma ob_address_header : forall f a, ob (address_header f a).
Proof. intros f a. unfold address_header, addMailHeader. sb; first [apply ob_addLog|apply ob_cmd]. Qed.
Lemma ob_chunks : forall l err, ob (send_chunks l err).
Proof. induction l as [|x l IH]; intros err; cbn [send_chunks]; sb; first [apply ob_cmd|apply IH]. Qed.
Lemma ob_set_rcpts : forall m, ob (setMailRecipients m).
Proof. intros m. unfold setMailRecipients. sb; first [apply ob_from|apply ob_rcpts]. Qed.
Lemma ob_headers : forall m, ob (setMailHeaders m).
Proof. intros m. unfold setMailHeaders, addMailHeader. sb; first [apply ob_addLog|apply ob_fb|apply ob_cmd|apply ob_address_header]. Qed.
Lemma ob_body : forall m, ob (setMailBody m).
Proof.
  intros m. unfold setMailBody, sendQuitCommand, sendQuit_with. change (sendCommandPtr_with cleanup) with sendCommandPtr.
  sb; first [apply ob_addLog|apply ob_fb|apply ob_cmd|apply ob_chunks].
Qed.
Lemma ob_transaction : forall m, ob (mail_transaction m).
Proof. intros m. unfold mail_transaction. sb; first [apply ob_set_rcpts|apply ob_headers|apply ob_body|apply ob_cleanup]. Qed.

(** The connection.  It begins with an empty log. *)
Definition nolog (s1 s2 : st) : Prop :=
  (exists r n a l z, s_c s2 = hist r n a (set_log l z (s_c s1))) /\ s_e s1 = s_e s2 /\ s_t s1 = s_t s2.
Lemma rel_initialize : rel nolog (fun _ => like R0) initializeSession initializeSession.
Proof.
  unfold initializeSession. eapply (rel_bind _ (fun _ => like R0)); [|intros _; exact ob_init].
  intros s1 s2 ((r & n & a & l & z & E) & Ee & Et). unfold updc. cbn [fst snd].
  assert (L : like R0 (mkSt (set_log (Some (mkLog [] INITIAL_COMM_LOG_LENGTH)) INITIAL_COMM_LOG_LENGTH (s_c s1)) (s_e s1) (s_t s1))
    (mkSt (set_log (Some (mkLog [] INITIAL_COMM_LOG_LENGTH)) INITIAL_COMM_LOG_LENGTH (s_c s2)) (s_e s2) (s_t s2))).
  { split; [exists r, n, a; cbn [s_c]; rewrite E; destruct (s_c s1); reflexivity|]. split; [exact Logic.I|]. split; assumption. }
  split; [reflexivity|]. split; [exact L|]. intros ? _. exact L.
Qed.
Lemma ident_auth : forall (m : M Z), rel (like R0) identified m m -> rel (like R0) (fun _ => like R0)
  (i <- m;; if negb (i =? 250) then ret i else authenticate_if_needed) (i <- m;; if negb (i =? 250) then ret i else authenticate_if_needed).
Proof.
  intros m H. eapply rel_bind; [exact H|]. intros z. unfold identified. destruct (z =? 250); cbn [negb]; [|apply ob_ret].
  apply (rel_pre (like Rauth)); [|exact rel_auth]. intros s t (A & [_ X] & B0). split; [exact A|split; [exact X|exact B0]].
Qed.
Lemma rel_secure : rel (like R0) identified getServerSecureIdentification getServerSecureIdentification.
Proof. unfold getServerSecureIdentification. eapply rel_bind; [apply ob_addLog|]. intros ?; cbv beta. apply rel_ehlo; discriminate. Qed.
Lemma rel_establish : rel nolog (fun _ => like R0) establish establish.
Proof.
  intros s1 s2 L.
  assert (X : forall k, c_kind (s_c s1) = k -> rel nolog (fun _ => like R0) (match k with KPlain => establishPlain | KOpp => establishOpp | KForced => establishForced end)
    (match k with KPlain => establishPlain | KOpp => establishOpp | KForced => establishForced end)).
  { intros [] _.
    - unfold establishPlain. eapply rel_bind; [exact rel_initialize|]. intros r. destruct (negb _); [apply ob_ret|].
      eapply rel_bind; [exact ob_greetings|]. intros g. destruct (negb _); [apply ob_ret|]. apply ident_auth. apply rel_ehlo; discriminate.
    - unfold establishOpp. eapply rel_bind; [exact rel_initialize|]. intros r. destruct (negb _); [apply ob_ret|].
      eapply rel_bind; [exact ob_greetings|]. intros g. destruct (negb _); [apply ob_ret|]. eapply rel_bind; [apply rel_ehlo; discriminate|].
      intros i. unfold identified, STATUS_CODE_REQUESTED_MAIL_ACTION_OK_OR_COMPLETED. destruct (i =? 250); cbn [negb]; [|apply ob_ret].
      apply rel_getc. intros c q n ao [X _]. rewrite <- X. apply (rel_pre (like R0)); [intros ? ?; apply like_0|]. eapply rel_bind; [apply ob_lift|]. intros [].
      + eapply rel_bind; [apply ob_addLog|]. intros ?; cbv beta. eapply rel_bind; [unfold upgradeToSecureConnection; eapply (rel_bind _ (fun _ => like R0)); [apply ob_addLog|intros _; apply ob_raw3]|].
        intros u. destruct (negb _); [apply ob_ret|]. eapply rel_bind; [exact ob_starttls|]. intros t. destruct (negb _); [apply ob_ret|]. apply ident_auth, rel_secure.
      + eapply rel_bind; [apply ob_addLog|]. intros ?; cbv beta. eapply (rel_bind _ (fun _ => like R0)); [|intros _; apply ob_ret]. change (ob (updc (set_keep true))). sb.
    - unfold establishForced. eapply rel_bind; [exact rel_initialize|]. intros r. destruct (negb _); [apply ob_ret|].
      eapply rel_bind; [exact ob_starttls|]. intros t. destruct (negb _); [apply ob_ret|].
      eapply rel_bind; [exact ob_greetings_tls|]. intros g. destruct (negb _); [apply ob_ret|]. apply ident_auth, rel_secure. }
  pose proof L as ((r & n & a & l & z & E) & _). assert (K : c_kind (s_c s2) = c_kind (s_c s1)) by (rewrite E; destruct (s_c s1); reflexivity).
  pose proof (X _ eq_refl s1 s2 L) as Y. unfold establish, bind, getc. rewrite K. exact Y.
Qed.
Lemma ob_rest : forall m r, ob (if negb (r =? 0) then ret r else updc (set_conn true);; mail_transaction m).
Proof. intros m r. sb. apply ob_transaction. Qed.
Definition ready (s1 s2 : st) : Prop := if c_conn (s_c s1) then like R0 s1 s2 else nolog s1 s2.
Lemma rel_send : forall m, rel ready (fun _ => like R0) (sendMail m) (sendMail m).
Proof.
  intros m s1 s2 L. unfold ready in L. unfold sendMail.
  assert (K : c_conn (s_c s2) = c_conn (s_c s1)).
  { destruct (c_conn (s_c s1)) eqn:C; [destruct L as ((r & n & a & E) & _)|destruct L as ((r & n & a & l & z & E) & _)]; rewrite E; destruct (s_c s1); exact C. }
  set (k := fun b : bool => r <- (if b then ret 0 else establish);; if negb (r =? 0) then ret r else updc (set_conn true);; mail_transaction m).
  assert (X : forall s, bind getc (fun c => r <- (if c_conn c then ret 0 else establish);; if negb (r =? 0) then ret r else updc (set_conn true);; mail_transaction m) s = k (c_conn (s_c s)) s) by reflexivity.
  rewrite !X, K. unfold k. destruct (c_conn (s_c s1)).
  - exact (rel_bind _ (fun _ => like R0) _ _ _ _ _ (ob_ret 0) (ob_rest m) s1 s2 L).
  - exact (rel_bind _ (fun _ => like R0) _ _ _ _ _ rel_establish (ob_rest m) s1 s2 L).
Qed.

Ltac flds := cbn [hist set_resp set_errno set_auth set_log set_conn set_bio set_ctx set_sock c_kind c_conn c_server c_port c_batch c_log c_logsize c_timeout c_cred c_sock c_keep c_rawptr c_bio c_ctx c_selfsigned s_c s_e s_t fst snd].
Ltac fldin H := cbn [c_kind c_conn c_server c_port c_batch c_log c_logsize c_timeout c_cred c_sock c_keep c_rawptr c_bio c_ctx c_selfsigned] in H.
Ltac fldv := cbv [s_c hist set_resp set_errno set_auth set_log c_kind c_conn c_server c_port c_batch c_log c_logsize c_resp c_timeout c_errno c_auth c_cred c_sock c_keep c_rawptr c_bio c_ctx c_selfsigned].
(** Destruction of a client without a connection. *)
Lemma destroy_same : forall s1 s2, ready s1 s2 -> let a := (cleanup;; ret 0) s1 in let b := (cleanup;; ret 0) s2 in
  fst a = fst b /\ s_e (snd a) = s_e (snd b) /\ s_t (snd a) = s_t (snd b).
Proof.
  intros s1 s2 L a b. unfold ready in L. destruct (c_conn (s_c s1)) eqn:C.
  - assert (D : ob (cleanup;; ret 0)) by (sb; apply ob_cleanup). destruct (D s1 s2 L) as (E & (_ & _ & Ee & Et) & _). auto.
  - destruct L as ((r & n & x & l & z & E) & Ee & Et). subst a b. unfold cleanup, cleanup_fuel.
    destruct s1 as [c1 e1 t1], s2 as [c2 e2 t2]. cbn [s_c s_e s_t] in *. subst e2 t2 c2. destruct c1. fldin C. subst.
    cbn [cleanup_f]. unfold free_tls, close_socket, bind, getc, updc, emit, emits, ret.
    flds.
    rewrite !andb_false_r.
    repeat (match goal with |- context [match ?x with _ => _ end] => is_var x; destruct x end; flds).
    all: match goal with |- context [Z.eqb ?x 0] => destruct (Z.eqb x 0) end; flds; repeat split; reflexivity.
Qed.

(** Worlds. *)
Lemma past_ready : forall c1 c2 e t, same_but_past c1 c2 -> ready (mkSt c1 e t) (mkSt c2 e t).
Proof.
  intros c1 c2 e t H. destruct c1, c2. unfold same_but_past in H. fldin H.
  destruct H as (-> & -> & -> & -> & -> & -> & -> & -> & -> & -> & -> & -> & -> & L). unfold ready. flds.
  match goal with |- if ?b then _ else _ => destruct b end.
  - destruct (L eq_refl) as [-> ->]. split; [do 3 eexists; fldv; reflexivity|].
    split; [exact Logic.I|split; reflexivity].
  - split; [do 5 eexists; fldv; reflexivity|].
    split; reflexivity.
Qed.
Lemma like_past : forall s1 s2, like R0 s1 s2 -> same_but_past (s_c s1) (s_c s2).
Proof. intros s1 s2 ((r & n & a & E) & _). rewrite E. unfold same_but_past. destruct (s_c s1). cbn. repeat (apply conj; [reflexivity|]). intros _. split; reflexivity. Qed.
Lemma get_same : forall w1 w2 i, same_world w1 w2 -> same_object (get_client w1 i) (get_client w2 i).
Proof.
  intros w1 w2 i (F & _). unfold get_client. revert i. induction F as [|x y l1 l2 H F IH]; intros i; [destruct i; exact Logic.I|].
  destruct i; cbn [nth_error]; [|apply IH]. destruct x, y; exact H.
Qed.
Lemma set_same : forall l1 l2, Forall2 same_object l1 l2 -> forall i x y, same_object x y -> Forall2 same_object (list_set l1 i x) (list_set l2 i y).
Proof. induction 1 as [|u v l1 l2 H F IH]; intros i x y S; [destruct i; constructor|]. destruct i; cbn [list_set]; constructor; auto. Qed.
Lemma put_same : forall w1 w2 i x y, same_world w1 w2 -> same_object x y -> same_world (put_client i x w1) (put_client i y w2).
Proof. intros w1 w2 i x y (F & E & T) S. split; [apply set_same; assumption|split; assumption]. Qed.
Lemma push_same : forall w1 w2 x y, same_world w1 w2 -> same_but_past x y -> same_world (push_client x w1) (push_client y w2).
Proof. intros w1 w2 x y (F & E & T) S. split; [apply Forall2_app; [exact F|constructor; [exact S|constructor]]|split; assumption]. Qed.
Definition same_result (o1 o2 : outcome client) : Prop :=
  match o1, o2 with
  | Done a, Done b => same_but_past a b
  | Throw, Throw | Blocked, Blocked | Killed, Killed | Diverge, Diverge => True
  | Undef u, Undef v => u = v
  | _, _ => False
  end.
Lemma create_same : forall w1 w2 o1 o2, same_world w1 w2 -> same_result o1 o2 -> fst (create o1 w1) = fst (create o2 w2) /\ same_world (snd (create o1 w1)) (snd (create o2 w2)).
Proof. intros w1 w2 o1 o2 W R. destruct o1, o2; try contradiction; cbn in *; (split; [congruence|]); try exact W. apply push_same; assumption. Qed.
Lemma alter_same : forall w1 w2 i f1 f2, same_world w1 w2 -> (forall a b, get_client w1 i = Some a -> get_client w2 i = Some b -> same_but_past a b -> same_result (f1 a) (f2 b)) ->
  fst (alter i f1 w1) = fst (alter i f2 w2) /\ same_world (snd (alter i f1 w1)) (snd (alter i f2 w2)).
Proof.
  intros w1 w2 i f1 f2 W R. pose proof (get_same w1 w2 i W) as G. unfold alter. destruct (get_client w1 i) as [a|], (get_client w2 i) as [b|]; try contradiction; [|split; [reflexivity|exact W]].
  specialize (R a b eq_refl eq_refl G). destruct (f1 a), (f2 b); try contradiction; cbn in *; (split; [congruence|]); try exact W. apply put_same; assumption.
Qed.
Ltac pasts := repeat match goal with H : same_but_past ?a ?b |- _ => destruct a, b; unfold same_but_past in H;
  fldin H; destruct H as (-> & -> & -> & -> & -> & -> & -> & -> & -> & -> & -> & -> & -> & ?) end.
Ltac past := pasts; unfold same_but_past, set_port, set_batch, set_timeout, set_cred, set_keep, set_selfsigned, set_server, client_move, client_moved, client_move_assign;
  cbn [c_kind c_conn c_server c_port c_batch c_log c_logsize c_timeout c_cred c_sock c_keep c_rawptr c_bio c_ctx c_selfsigned];
  repeat (apply conj; [reflexivity|]); first [assumption|discriminate|split; reflexivity].
Lemma new_past : forall c, same_but_past c c.
Proof. intros c. unfold same_but_past. repeat (apply conj; [reflexivity|]). intros _. split; reflexivity. Qed.
Lemma refl_result : forall o, same_result o o.
Proof. intros [c| | | | |]; cbn; auto. apply new_past. Qed.
Lemma step_same : forall o w1 w2, same_world w1 w2 -> fst (step o w1) = fst (step o w2) /\ same_world (snd (step o w1)) (snd (step o w2)).
Proof.
  intros o w1 w2 W. destruct o; cbn [step].
  - apply create_same; [exact W|apply refl_result].
  - pose proof (get_same w1 w2 src W) as G. destruct (get_client w1 src) as [a|], (get_client w2 src) as [b|]; try contradiction; [|split; [reflexivity|exact W]].
    apply create_same; [exact W|]. cbn [same_object] in G. pasts. unfold client_copy. flds. lazymatch goal with |- same_result (match ?x with _ => _ end) _ => destruct x end; [|reflexivity]. cbn. past.
  - pose proof (get_same w1 w2 src W) as G. destruct (get_client w1 src) as [a|], (get_client w2 src) as [b|]; try contradiction; [|split; [reflexivity|exact W]].
    split; [reflexivity|]. cbn [snd]. cbn [same_object] in G. apply push_same; [apply put_same; [exact W|]; cbn [same_object]|]; past.
  - pose proof (get_same w1 w2 dst W) as G. pose proof (get_same w1 w2 src W) as G'.
    destruct (get_client w1 dst) as [a|], (get_client w2 dst) as [b|]; try contradiction; [|split; [reflexivity|exact W]].
    destruct (get_client w1 src) as [a'|], (get_client w2 src) as [b'|]; try contradiction; [|split; [reflexivity|exact W]].
    destruct (Nat.eqb dst src); [split; [reflexivity|exact W]|]. cbn [same_object] in G, G'.
    replace (c_kind b) with (c_kind a) by apply G. replace (c_kind b') with (c_kind a') by apply G'. destruct (kind_eqb _ _); [|split; [reflexivity|exact W]].
    apply alter_same; [exact W|]. intros x y _ _ Gx. clear G a b. unfold client_assign. replace (c_server b') with (c_server a') by apply G'. destruct (c_server a'); [|reflexivity]. cbn [same_result]. past.
  - pose proof (get_same w1 w2 dst W) as G. pose proof (get_same w1 w2 src W) as G'.
    destruct (get_client w1 dst) as [a|], (get_client w2 dst) as [b|]; try contradiction; [|split; [reflexivity|exact W]].
    destruct (get_client w1 src) as [a'|], (get_client w2 src) as [b'|]; try contradiction; [|split; [reflexivity|exact W]].
    destruct (Nat.eqb dst src); [split; [reflexivity|exact W]|]. cbn [same_object] in G, G'.
    replace (c_kind b) with (c_kind a) by apply G. replace (c_kind b') with (c_kind a') by apply G'. destruct (kind_eqb _ _); [|split; [reflexivity|exact W]].
    split; [reflexivity|]. cbn [snd]. apply put_same; [apply put_same; [exact W|]|]; cbn [same_object]; past.
  - pose proof (get_same w1 w2 i W) as G. unfold run_on. destruct (get_client w1 i) as [a|], (get_client w2 i) as [b|]; try contradiction; [|split; [reflexivity|exact W]].
    destruct W as (F & <- & <-). destruct (rel_send m _ _ (past_ready a b (w_env w1) (w_trace w1) G)) as (E & L & _).
    destruct (sendMail m (mkSt a _ _)) as [o1 q1], (sendMail m (mkSt b _ _)) as [o2 q2]. cbn [fst snd] in *. split; [exact E|]. pose proof L as (_ & _ & Ee & Et).
    split; [apply set_same; [exact F|exact (like_past _ _ L)]|split; assumption].
  - apply alter_same; [exact W|]. intros a b _ _ G. unfold client_setServerName, obind. destruct (check_server_name server); cbn [same_result]; try reflexivity; try exact Logic.I. past.
  - apply alter_same; [exact W|]. intros a b _ _ G. cbn [same_result]. past.
  - apply alter_same; [exact W|]. intros a b' _ _ G. cbn [same_result]. past.
  - apply alter_same; [exact W|]. intros a b _ _ G. cbn [same_result]. past.
  - apply alter_same; [exact W|]. intros a b _ _ G. cbn [same_result]. past.
  - apply alter_same; [exact W|]. intros a b' _ _ G. cbn [same_result]. past.
  - apply alter_same; [exact W|]. intros a b' _ _ G. replace (c_kind b') with (c_kind a) by apply G. destruct (c_kind a); cbn [same_result]; [exact Logic.I|past|past].
  - pose proof (get_same w1 w2 i W) as G. unfold run_on. destruct (get_client w1 i) as [a|], (get_client w2 i) as [b|]; try contradiction; [|split; [reflexivity|exact W]].
    destruct W as (F & <- & <-). pose proof (destroy_same _ _ (past_ready a b (w_env w1) (w_trace w1) G)) as (E & Ee & Et).
    destruct ((cleanup;; ret 0) (mkSt a _ _)) as [o1 q1], ((cleanup;; ret 0) (mkSt b _ _)) as [o2 q2]. cbn [fst snd] in *. split; [exact E|].
    split; [apply set_same; [exact F|exact Logic.I]|split; assumption].
Qed.
Lemma run_same : forall ops w1 w2, same_world w1 w2 -> fst (run ops w1) = fst (run ops w2) /\ same_world (snd (run ops w1)) (snd (run ops w2)).
Proof.
  induction ops as [|o ops IH]; intros w1 w2 W; cbn [run]; [split; [reflexivity|exact W]|].
  destruct (step_same o w1 w2 W) as [E W']. destruct (step o w1) as [x1 v1], (step o w2) as [x2 v2]. cbn [fst snd] in *. subst x2.
  destruct (continues x1); [|split; [reflexivity|exact W']]. destruct (IH v1 v2 W') as [E' W'']. destruct (run ops v1), (run ops v2). cbn [fst snd] in *. subst. split; [reflexivity|exact W''].
Qed.
Lemma send_log_same : forall i m w1 w2 c1 c2, same_world w1 w2 -> get_client (snd (step (OSend i m) w1)) i = Some c1 -> get_client (snd (step (OSend i m) w2)) i = Some c2 ->
  c_log c1 = c_log c2.
Proof.
  intros i m w1 w2 c1 c2 W G1 G2. pose proof (get_same w1 w2 i W) as G. cbn [step] in G1, G2. unfold run_on in G1, G2.
  destruct (get_client w1 i) as [a|] eqn:A, (get_client w2 i) as [b|] eqn:B0; try contradiction; [|cbn [snd] in G1; congruence].
  destruct W as (F & E & T). rewrite <- E, <- T in G2. destruct (rel_send m _ _ (past_ready a b (w_env w1) (w_trace w1) G)) as (_ & ((r & n & x & L) & _) & _).
  destruct (sendMail m (mkSt a _ _)) as [o1 q1], (sendMail m (mkSt b _ _)) as [o2 q2]. cbn [fst snd] in *.
  assert (P : forall (l : list (option client)) (v d : client), nth_error l i = Some (Some d) -> nth_error (list_set l i (Some v)) i = Some (Some v)).
  { clear. induction i as [|i IH]; intros [|y l] v d H; cbn in *; try discriminate; [reflexivity|exact (IH l v d H)]. }
  unfold get_client in *. cbn [w_clients] in *. destruct (nth_error (w_clients w1) i) as [[a0|]|] eqn:N1; try discriminate. destruct (nth_error (w_clients w2) i) as [[b0|]|] eqn:N2; try discriminate.
  rewrite (P _ _ _ N1) in G1. rewrite (P _ _ _ N2) in G2. injection G1 as <-. injection G2 as <-. rewrite L. destruct (s_c q1). reflexivity.
Qed.
Lemma rest_past : forall c, at_rest c -> same_but_past c (as_new c).
Proof. intros [] (C & S & U & X). unfold same_but_past, as_new. cbn in *. subst. repeat (apply conj; [reflexivity|]). discriminate. Qed.
Lemma rest_world : forall w i c, get_client w i = Some c -> at_rest c -> same_world w (put_client i (Some (as_new c)) w).
Proof.
  intros w i c G R. split; [|split; reflexivity]. unfold get_client in G. cbn [put_client w_clients]. revert i G. induction (w_clients w) as [|x l IH]; intros i G; [destruct i; constructor|].
  assert (Q : forall l, Forall2 same_object l l) by (clear; induction l as [|[c|] l IH]; constructor; auto; [apply new_past|exact Logic.I]).
  destruct i; cbn [nth_error list_set] in *; constructor; auto.
  - destruct x as [x|]; [|discriminate]. injection G as ->. exact (rest_past c R).
  - destruct x; cbn; [apply new_past|exact Logic.I].
Qed.
