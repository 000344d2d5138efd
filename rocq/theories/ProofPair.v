(** Two runs that differ in the credential and in how replies are split. *)

From Coq Require Import Ascii String List NArith ZArith Bool Lia ZifyBool ZifyNat ZifyN.
From Verif Require Import Base Lib ModelUtil ModelBase64 ModelAddress ModelAttachment ModelMessage ModelReply ModelErrors ModelState ModelClient ModelWorld
  ProofDiverge ProofAuth.
From Verif Require Import SpecAuth.
Import ListNotations.
Open Scope Z_scope.

Section pair.
(** How credentials, timeouts, traces and the events of reading may be related. *)
Variable K : option credential -> option credential -> Prop.
Variable T : N -> Prop.
Variable Rt : list event -> list event -> Prop.
Variable Rd : list event -> list event -> Prop.
Hypothesis K_none : forall o, K None o -> o = None.
Hypothesis K_some : forall cr o, K (Some cr) o -> exists cr', o = Some cr' /\ cr_method cr' = cr_method cr.
Hypothesis Rt_app : forall t1 t2 t, Rt t1 t2 -> Rt (t1 ++ t) (t2 ++ t).
Hypothesis Rt_reads : forall t1 t2 r1 r2, Rt t1 t2 -> Rd r1 r2 -> Rt (t1 ++ r1) (t2 ++ r2).
Definition ok_pair (d1 d2 : str) : Prop := forall t1 t2, Rt t1 t2 ->
  (forall fd r, Rt (t1 ++ [EvSend fd (cstr d1) r]) (t2 ++ [EvSend fd (cstr d2) r])) /\
  (forall b r, Rt (t1 ++ [EvPuts b (cstr d1) r]) (t2 ++ [EvPuts b (cstr d2) r])).
Hypothesis K_script : forall cr1 cr2 k, K (Some cr1) (Some cr2) -> Forall2 ok_pair (script k cr1) (script k cr2).

Definition recvs := list recv_res -> list recv_res -> Prop.
Definition like_c (c1 c2 : client) : Prop := T (c_timeout c1) /\ exists o, K (c_cred c1) o /\ c2 = set_cred o c1.
Definition like_e (Q : recvs) (e1 e2 : env) : Prop := exists r, Q (e_recv e1) r /\ e2 = set_recv r e1.
Definition like (Q : recvs) (s1 s2 : st) : Prop :=
  like_c (s_c s1) (s_c s2) /\ like_e Q (s_e s1) (s_e s2) /\ Rt (s_t s1) (s_t s2).
Definition sim {A} (Q Q' : recvs) (m1 m2 : M A) : Prop := forall s1 s2, like Q s1 s2 ->
  fst (m1 s1) = fst (m2 s2) /\ like Q' (snd (m1 s1)) (snd (m2 s2)).
Definition sub (Q Q' : recvs) : Prop := forall a b, Q a b -> Q' a b.
Lemma like_sub : forall Q Q' s1 s2, sub Q Q' -> like Q s1 s2 -> like Q' s1 s2.
Proof. intros Q Q' s1 s2 H (C & (r & Hr & E) & Tt). split; [exact C|]. split; [exists r; auto|exact Tt]. Qed.
Lemma sub_refl : forall Q, sub Q Q.
Proof. intros Q a b H. exact H. Qed.
Lemma sim_bind : forall {A C} (Q Q' Q'' : recvs) (m1 m2 : M A) (k1 k2 : A -> M C), sub Q' Q'' -> sim Q Q' m1 m2 -> (forall a, sim Q' Q'' (k1 a) (k2 a)) ->
  sim Q Q'' (bind m1 k1) (bind m2 k2).
Proof.
  intros A C Q Q' Q'' m1 m2 k1 k2 S M0 K0 s1 s2 L. destruct (M0 s1 s2 L) as [E L']. unfold bind.
  destruct (m1 s1) as [o1 q1], (m2 s2) as [o2 q2]. cbn [fst snd] in *. subst o2.
  destruct o1; try (split; [reflexivity|exact (like_sub _ _ _ _ S L')]). exact (K0 a q1 q2 L').
Qed.
Lemma sim_ret : forall {A} Q (a : A), sim Q Q (ret a) (ret a).
Proof. intros A Q a s1 s2 L. split; [reflexivity|exact L]. Qed.
Lemma sim_lift : forall {A} Q (a : outcome A), sim Q Q (lift a) (lift a).
Proof. intros A Q a s1 s2 L. split; [reflexivity|exact L]. Qed.
Lemma sim_getc : forall {C} (Q Q' : recvs) (k1 k2 : client -> M C), (forall c o, T (c_timeout c) -> K (c_cred c) o -> sim Q Q' (k1 c) (k2 (set_cred o c))) ->
  sim Q Q' (bind getc k1) (bind getc k2).
Proof.
  intros C Q Q' k1 k2 H s1 s2 L. pose proof L as ((Tm & o & Ko & Ec) & _). unfold bind, getc. rewrite Ec. exact (H (s_c s1) o Tm Ko s1 s2 L).
Qed.
Lemma sim_gete : forall {C} (Q Q' : recvs) (k1 k2 : env -> M C), (forall e r, Q (e_recv e) r -> sim Q Q' (k1 e) (k2 (set_recv r e))) ->
  sim Q Q' (bind gete k1) (bind gete k2).
Proof.
  intros C Q Q' k1 k2 H s1 s2 L. pose proof L as (_ & (r & Qr & Ee) & _). unfold bind, gete. rewrite Ee. exact (H (s_e s1) r Qr s1 s2 L).
Qed.
Lemma sim_updc : forall Q f, (forall c o, f (set_cred o c) = set_cred o (f c) /\ c_cred (f c) = c_cred c /\ c_timeout (f c) = c_timeout c) -> sim Q Q (updc f) (updc f).
Proof.
  intros Q f H s1 s2 ((Tm & o & Ko & Ec) & E & R). split; [reflexivity|]. cbn [updc snd]. destruct (H (s_c s1) o) as (H1 & H2 & H3).
  split; [|split; [exact E|exact R]]. cbn [s_c]. split; [rewrite H3; exact Tm|]. exists o. rewrite H2. split; [exact Ko|]. rewrite Ec. exact H1.
Qed.
Lemma sim_upde : forall Q f, (forall e r, f (set_recv r e) = set_recv r (f e) /\ e_recv (f e) = e_recv e) -> sim Q Q (upde f) (upde f).
Proof.
  intros Q f H s1 s2 (C & (r & Qr & Ee) & R). split; [reflexivity|]. destruct (H (s_e s1) r) as [H1 H2].
  split; [exact C|]. split; [|exact R]. cbn [s_e snd upde]. exists r. rewrite H2. split; [exact Qr|]. rewrite Ee. exact H1.
Qed.
Lemma sim_emits : forall Q l1 l2, (forall t1 t2, Rt t1 t2 -> Rt (t1 ++ l1) (t2 ++ l2)) -> sim Q Q (emits l1) (emits l2).
Proof. intros Q l1 l2 H s1 s2 (C & E & R). split; [reflexivity|]. split; [exact C|]. split; [exact E|]. apply H, R. Qed.
Lemma sim_emit : forall Q e1 e2, (forall t1 t2, Rt t1 t2 -> Rt (t1 ++ [e1]) (t2 ++ [e2])) -> sim Q Q (emit e1) (emit e2).
Proof. intros Q e1 e2 H s1 s2 (C & E & R). split; [reflexivity|]. split; [exact C|]. split; [exact E|]. apply H, R. Qed.

Ltac pc := cbn [set_cred set_recv c_kind c_conn c_server c_port c_batch c_log c_logsize c_resp c_timeout c_errno c_auth c_sock c_keep c_rawptr c_bio c_ctx c_selfsigned
   e_send e_bread e_bputs e_sock e_host e_fcntl e_conn e_select e_sopt e_tls e_fs e_strerror e_x509str e_next].
Ltac p1 := lazymatch goal with
  | |- sim _ _ (bind getc _) (bind getc _) => apply sim_getc; intros ? ? ? ?; pc
  | |- sim _ _ (bind gete _) (bind gete _) => apply sim_gete; intros ? ? ?; pc
  | |- sim _ _ (bind _ _) (bind _ _) => eapply sim_bind; [apply sub_refl| |intros ?]
  | |- sim _ _ (ret _) (ret _) => apply sim_ret
  | |- sim _ _ (lift _) (lift _) => apply sim_lift
  | |- sim _ _ (fail_ub _) (fail_ub _) => apply sim_lift
  | |- sim _ _ blocked blocked => apply sim_lift
  | |- sim _ _ diverge diverge => apply sim_lift
  | |- sim _ _ killed killed => apply sim_lift
  | |- sim _ _ (updc _) (updc _) => apply sim_updc; intros ? ?; repeat split
  | |- sim _ _ (upde _) (upde _) => apply sim_upde; intros ? ?; repeat split
  | |- sim _ _ (emit ?e) (emit ?e) => apply sim_emit; intros ? ?; apply Rt_app
  | |- sim _ _ (if ?b then _ else _) (if ?b then _ else _) => destruct b
  | |- sim _ _ (match ?x with _ => _ end) (match ?x with _ => _ end) => destruct x
  end.
Ltac ps := repeat (p1; cbv zeta).

Lemma sim_addLog : forall Q i p, sim Q Q (addLog i p) (addLog i p).
Proof. intros. unfold addLog. ps. Qed.
Lemma sim_log_errno : forall Q er, sim Q Q (log_errno er) (log_errno er).
Proof. intros. unfold log_errno, setLastSocketErrNo, logc. ps; try apply sim_addLog. Qed.
Lemma sim_resp : forall Q x, sim Q Q (setLastServerResponse x) (setLastServerResponse x).
Proof. intros. unfold setLastServerResponse. ps. Qed.
Lemma sim_errno : forall Q x, sim Q Q (setLastSocketErrNo x) (setLastSocketErrNo x).
Proof. intros. unfold setLastSocketErrNo. ps. Qed.
Lemma sim_fcntl : forall Q md, sim Q Q (sys_fcntl md) (sys_fcntl md).
Proof. intros. unfold sys_fcntl. ps. Qed.
Ltac p2 := lazymatch goal with
  | |- sim _ _ (addLog _ _) _ => apply sim_addLog
  | |- sim _ _ (logc _) _ => apply sim_addLog
  | |- sim _ _ (logs _) _ => apply sim_addLog
  | |- sim _ _ (log_errno _) _ => apply sim_log_errno
  | |- sim _ _ (setLastServerResponse _) _ => apply sim_resp
  | |- sim _ _ (setLastSocketErrNo _) _ => apply sim_errno
  | |- sim _ _ (sys_fcntl _) _ => apply sim_fcntl
  | _ => p1
  end.
Ltac qs := repeat (p2; cbv zeta).
Lemma sim_nonblocking : forall Q, sim Q Q setSocketToNonBlocking setSocketToNonBlocking.
Proof. intros. unfold setSocketToNonBlocking. qs. Qed.
Lemma sim_blocking : forall Q, sim Q Q setSocketToBlocking setSocketToBlocking.
Proof. intros. unfold setSocketToBlocking. qs. Qed.
Lemma sim_initialize : forall Q, sim Q Q initializeSession initializeSession.
Proof.
  intros. unfold initializeSession, initializeSessionPOSIX, sys_gethostbyname, sys_connect, wait_connect. qs;
  try apply sim_nonblocking; try apply sim_blocking.
Qed.

(** Writing. *)
Lemma ok_refl : forall d, ok_pair d d.
Proof. intros d t1 t2 R. split; intros; apply Rt_app, R. Qed.
Lemma sim_send : forall Q d1 d2, ok_pair d1 d2 -> sim Q Q (sys_send (cstr d1)) (sys_send (cstr d2)).
Proof. intros Q d1 d2 O. unfold sys_send. ps; apply sim_emit; intros t1 t2 R; apply O, R. Qed.
Lemma sim_puts : forall Q b d1 d2, ok_pair d1 d2 -> sim Q Q (sys_puts b (cstr d1)) (sys_puts b (cstr d2)).
Proof. intros Q b d1 d2 O. unfold sys_puts. ps; apply sim_emit; intros t1 t2 R; apply O, R. Qed.
Lemma sim_raw2_with : forall Q cl d1 d2 err, ok_pair d1 d2 -> sim Q Q cl cl -> sim Q Q (sendRaw2_with cl d1 err) (sendRaw2_with cl d2 err).
Proof. intros Q cl d1 d2 err O C. unfold sendRaw2_with. qs; first [apply sim_send; exact O|exact C]. Qed.
Lemma sim_tls_with : forall Q cl d1 d2 err, ok_pair d1 d2 -> sim Q Q cl cl -> sim Q Q (sendCommandTLS_with cl d1 err) (sendCommandTLS_with cl d2 err).
Proof. intros Q cl d1 d2 err O C. unfold sendCommandTLS_with. qs; first [apply sim_puts; exact O|exact C]. Qed.
Lemma sim_cmd_with : forall Q cl d1 d2 err, ok_pair d1 d2 -> sim Q Q cl cl -> sim Q Q (sendCommandPtr_with cl d1 err) (sendCommandPtr_with cl d2 err).
Proof. intros Q cl d1 d2 err O C. unfold sendCommandPtr_with. qs; first [apply sim_raw2_with; assumption|apply sim_tls_with; assumption]. Qed.
Lemma sim_cleanup_f : forall Q f, sim Q Q (cleanup_f f) (cleanup_f f).
Proof.
  intros Q. induction f as [|f IH]; cbn [cleanup_f]; [ps|]. unfold sendQuit_with, free_tls, close_socket. qs; try (apply sim_cmd_with; [apply ok_refl|exact IH]).
Qed.
Lemma sim_cleanup : forall Q, sim Q Q cleanup cleanup.
Proof.
  intros Q s1 s2 L. unfold cleanup. assert (E : cleanup_fuel (s_e s2) = cleanup_fuel (s_e s1)) by (destruct L as (_ & (r & _ & ->) & _); reflexivity).
  rewrite E. exact (sim_cleanup_f Q _ s1 s2 L).
Qed.
Lemma sim_raw2 : forall Q d1 d2 err, ok_pair d1 d2 -> sim Q Q (sendRaw2 d1 err) (sendRaw2 d2 err).
Proof. intros. apply sim_raw2_with; [assumption|apply sim_cleanup]. Qed.
Lemma sim_cmd : forall Q d err, sim Q Q (sendCommandPtr d err) (sendCommandPtr d err).
Proof. intros. apply sim_cmd_with; [apply ok_refl|apply sim_cleanup]. Qed.

Lemma Rd_wait_bio : forall Q, sim Q Q wait_bio wait_bio.
Proof.
  intros Q. unfold wait_bio, wait_null_bio. p1. destruct (c_bio c) as [b|]; [|ps].
  p1. destruct (wait_loop _ _ _ _) as [[x evs] rest]. ps. apply sim_emits. intros t1 t2. apply Rt_app.
Qed.
Lemma sim_greeting_result : forall Q r, sim Q Q (greeting_result r) (greeting_result r).
Proof. intros. unfold greeting_result. qs. Qed.
Lemma sim_greetings_tls : forall Q, sim Q Q checkServerGreetingsTLS checkServerGreetingsTLS.
Proof. intros. unfold checkServerGreetingsTLS. p1; [apply Rd_wait_bio|apply sim_greeting_result]. Qed.
Lemma sim_starttls : forall Q, sim Q Q startTLSNegotiation startTLSNegotiation.
Proof. intros. unfold startTLSNegotiation, fresh_id. qs; apply sim_cleanup. Qed.

(** Reading in clear. *)
Definition reads_alike (Q : recvs) : Prop := forall fd tmo rs1 rs2, T tmo -> Q rs1 rs2 ->
  fst (fst (raw_loop fd tmo 0 false [] rs1)) = fst (fst (raw_loop fd tmo 0 false [] rs2)) /\
  Rd (snd (fst (raw_loop fd tmo 0 false [] rs1))) (snd (fst (raw_loop fd tmo 0 false [] rs2))) /\
  Q (snd (raw_loop fd tmo 0 false [] rs1)) (snd (raw_loop fd tmo 0 false [] rs2)).
Lemma sim_set_recv : forall (Q Q' : recvs) r1 r2, Q' r1 r2 -> sim Q Q' (upde (set_recv r1)) (upde (set_recv r2)).
Proof.
  intros Q Q' r1 r2 H s1 s2 (C & (r & Qr & Ee) & R). split; [reflexivity|]. split; [exact C|]. split; [|exact R]. cbn [upde snd s_e].
  exists r2. split; [exact H|]. rewrite Ee. reflexivity.
Qed.
Lemma sim_raw_reply : forall Q, reads_alike Q -> sim Q Q getRawCommandReply getRawCommandReply.
Proof.
  intros Q A. unfold getRawCommandReply. p1; [apply sim_nonblocking|]. p1. p1.
  destruct (A (c_sock c) (c_timeout c) _ _ H H1) as (E & D & Q').
  cbn [e_recv set_recv].
  destruct (raw_loop (c_sock c) (c_timeout c) 0 false [] (e_recv e)) as [[o1 ev1] r1].
  destruct (raw_loop (c_sock c) (c_timeout c) 0 false [] r) as [[o2 ev2] r2]. cbn [fst snd] in *. subst o2.
  eapply sim_bind; [apply sub_refl|apply sim_set_recv; exact Q'|intros _].
  eapply sim_bind; [apply sub_refl|apply sim_emits; intros t1 t2 R; apply Rt_reads; assumption|intros _].
  qs. apply sim_blocking.
Qed.
Lemma sim_reply_tls : forall Q, sim Q Q getServerReplyTLS getServerReplyTLS.
Proof. intros. unfold getServerReplyTLS. qs. apply Rd_wait_bio. Qed.
Lemma sim_reply : forall Q, reads_alike Q -> sim Q Q getServerReply getServerReply.
Proof. intros Q A. unfold getServerReply. qs; first [apply sim_raw_reply; exact A|apply sim_reply_tls]. Qed.
Lemma sim_raw3 : forall Q d1 d2 err tmo, reads_alike Q -> ok_pair d1 d2 -> sim Q Q (sendRaw3 d1 err tmo) (sendRaw3 d2 err tmo).
Proof. intros Q d1 d2 err tmo A O. unfold sendRaw3. qs; first [apply sim_raw2; exact O|apply sim_raw_reply; exact A|apply sim_cleanup]. Qed.
Lemma sim_feedback : forall Q d1 d2 err tmo, reads_alike Q -> ok_pair d1 d2 -> sim Q Q (sendFeedback d1 err tmo) (sendFeedback d2 err tmo).
Proof.
  intros Q d1 d2 err tmo A O. unfold sendFeedback, sendFeedbackTLS. qs;
  first [apply sim_raw3; assumption|apply sim_puts; exact O|apply sim_reply; exact A|apply sim_cleanup].
Qed.
Lemma sim_fb : forall Q d1 d2 err tmo, reads_alike Q -> ok_pair d1 d2 -> sim Q Q (sendFeedbackPtr d1 err tmo) (sendFeedbackPtr d2 err tmo).
Proof. intros. unfold sendFeedbackPtr. qs; first [apply sim_raw3; assumption|apply sim_feedback; assumption]. Qed.

(** EHLO: the fuels may differ. *)
Lemma sim_ehlo_loop : forall Q f1 f2 tmo o s1 s2, reads_alike Q -> like Q s1 s2 ->
  (length (e_recv (s_e s1)) + length (e_bread (s_e s1)) < f1)%nat -> (length (e_recv (s_e s2)) + length (e_bread (s_e s2)) < f2)%nat ->
  fst (ehlo_loop f1 tmo o s1) = fst (ehlo_loop f2 tmo o s2) /\ like Q (snd (ehlo_loop f1 tmo o s1)) (snd (ehlo_loop f2 tmo o s2)).
Proof.
  intros Q. induction f1 as [|f1 IH]; intros f2 tmo o s1 s2 A L L1 L2; [lia|]. destruct f2 as [|f2]; [lia|]. cbn [ehlo_loop].
  destruct (containsAllOptions o).
  { assert (X : sim Q Q (updc (set_auth (extractAuthenticationOptions (Some o)));; ret 250) (updc (set_auth (extractAuthenticationOptions (Some o)));; ret 250)) by qs.
    exact (X s1 s2 L). }
  destruct (sim_reply Q A s1 s2 L) as [E L']. pose proof (reply_shorter s1) as R1. pose proof (reply_shorter s2) as R2. unfold bind.
  destruct (getServerReply s1) as [x1 q1], (getServerReply s2) as [x2 q2]. cbn [fst snd] in *. subst x2.
  destruct x1 as [code| | | | |]; try (split; [reflexivity|exact L']). specialize (R1 _ _ eq_refl). specialize (R2 _ _ eq_refl).
  destruct (code =? -1) eqn:Ec; [split; [reflexivity|exact L']|]. destruct (negb (code =? 250)); [split; [reflexivity|exact L']|].
  unfold getc. pose proof L' as ((_ & oc & _ & Ec2) & _). rewrite Ec2. cbn [c_resp set_cred].
  destruct (c_resp (s_c q1)) as [r|]; [|split; [reflexivity|exact L']].
  apply IH; [exact A|exact L'| |]; [destruct R1 as [->|R1]|destruct R2 as [->|R2]]; try discriminate Ec; lia.
Qed.
Lemma sim_ehlo : forall Q err tmo, reads_alike Q -> sim Q Q (ehlo_with err tmo) (ehlo_with err tmo).
Proof.
  intros Q err tmo A. unfold ehlo_with. p1; [qs|]. p1; [apply sim_feedback; [exact A|apply ok_refl]|]. p1; [qs|]. p1. destruct (c_resp c); [|qs].
  intros s1 s2 L. unfold bind, gete. apply sim_ehlo_loop; [exact A|exact L|lia|lia].
Qed.
Lemma sim_authenticate : forall Q, reads_alike Q -> sim Q Q authenticate_if_needed authenticate_if_needed.
Proof.
  intros Q A. unfold authenticate_if_needed. apply sim_getc; intros c o Tc Kc. cbn [set_cred c_cred].
  destruct (c_cred c) as [cr|] eqn:Ec. 2:{ rewrite (K_none _ Kc). qs. }
  destruct (K_some _ _ Kc) as (cr' & -> & _). p1; [|qs].
  unfold authenticateClient. apply sim_getc; intros c2 o2 Tc2 Kc2. cbn [set_cred c_cred c_auth]. destruct (c_cred c2) as [cr2|]. 2:{ rewrite (K_none _ Kc2). qs. }
  destruct (K_some _ _ Kc2) as (cr2' & -> & Em). destruct (c_auth c2) as [oo|]; [|qs]. rewrite Em.
  unfold authPlain, authLogin, authXOauth2. p1.
  { pose proof (K_script _ _ Plain Kc2) as P. cbn [script] in P. inversion P; subst. qs. apply sim_fb; assumption. }
  p1. { pose proof (K_script _ _ Login Kc2) as P. cbn [script] in P. inversion P as [|? ? ? ? P1 P2]; subst. inversion P2 as [|? ? ? ? P3 P4]; subst.
    inversion P4 as [|? ? ? ? P5 P6]; subst. qs; apply sim_fb; assumption. }
  p1. { pose proof (K_script _ _ Xoauth2 Kc2) as P. cbn [script] in P. inversion P; subst. qs. apply sim_fb; assumption. }
  qs.
Qed.
Lemma sim_upgrade : forall Q, reads_alike Q -> sim Q Q upgradeToSecureConnection upgradeToSecureConnection.
Proof. intros Q A. unfold upgradeToSecureConnection. qs. apply sim_raw3; [exact A|apply ok_refl]. Qed.

(** The mail. *)
Lemma sim_fb' : forall Q d err tmo, reads_alike Q -> sim Q Q (sendFeedbackPtr d err tmo) (sendFeedbackPtr d err tmo).
Proof. intros. apply sim_fb; [assumption|apply ok_refl]. Qed.
Lemma sim_mail_from : forall Q fs last, reads_alike Q -> sim Q Q (mail_from_loop fs last) (mail_from_loop fs last).
Proof. intros Q fs. induction fs as [|f r IH]; intros last A; cbn [mail_from_loop]; qs; first [apply sim_fb'; exact A|apply IH; exact A]. Qed.
Lemma sim_add : forall Q l r, reads_alike Q -> sim Q Q (addMailRecipients l r) (addMailRecipients l r).
Proof. intros Q l. induction l as [|a l IH]; intros r A; cbn [addMailRecipients]; qs; first [apply sim_fb'; exact A|apply IH; exact A]. Qed.
Lemma sim_rcpts : forall Q ls, reads_alike Q -> sim Q Q (recipients_loop ls) (recipients_loop ls).
Proof. intros Q ls A. induction ls as [|a l IH]; cbn [recipients_loop]; qs; first [apply sim_add; exact A|exact IH]. Qed.
Lemma sim_set_rcpts : forall Q m, reads_alike Q -> sim Q Q (setMailRecipients m) (setMailRecipients m).
Proof. intros Q m A. unfold setMailRecipients. qs; first [apply sim_mail_from; exact A|apply sim_rcpts; exact A]. Qed.
Lemma sim_header : forall Q f v err, sim Q Q (addMailHeader f v err) (addMailHeader f v err).
Proof. intros. unfold addMailHeader. qs. apply sim_cmd. Qed.
Lemma sim_address_header : forall Q f a, sim Q Q (address_header f a) (address_header f a).
Proof. intros. unfold address_header. qs; apply sim_header. Qed.
Lemma sim_headers : forall Q m, reads_alike Q -> sim Q Q (setMailHeaders m) (setMailHeaders m).
Proof. intros Q m A. unfold setMailHeaders. qs; first [apply sim_fb'; exact A|apply sim_header|apply sim_address_header|apply sim_cmd]. Qed.
Lemma sim_chunks : forall Q l err, sim Q Q (send_chunks l err) (send_chunks l err).
Proof. intros Q l. induction l as [|x r IH]; intros err; cbn [send_chunks]; qs; first [apply sim_cmd|apply IH]. Qed.
Lemma sim_quit : forall Q, sim Q Q sendQuitCommand sendQuitCommand.
Proof. intros. unfold sendQuitCommand, sendQuit_with. qs. apply sim_cmd. Qed.
Lemma sim_body : forall Q m, reads_alike Q -> sim Q Q (setMailBody m) (setMailBody m).
Proof. intros Q m A. unfold setMailBody. qs; first [apply sim_chunks|apply sim_fb'; exact A|apply sim_quit]. Qed.
Lemma sim_transaction : forall Q m, reads_alike Q -> sim Q Q (mail_transaction m) (mail_transaction m).
Proof.
  intros Q m A. unfold mail_transaction. qs; first [apply sim_set_rcpts; exact A|apply sim_headers; exact A|apply sim_body; exact A|apply sim_cleanup].
Qed.

(** Connecting. *)
Lemma sim_weaken : forall {A} (Q Q' Q'' : recvs) (m1 m2 : M A), sub Q' Q'' -> sim Q Q' m1 m2 -> sim Q Q'' m1 m2.
Proof. intros A Q Q' Q'' m1 m2 S H s1 s2 L. destruct (H s1 s2 L) as [E L']. split; [exact E|]. exact (like_sub _ _ _ _ S L'). Qed.
Definition greets (Q0 Q : recvs) : Prop := forall fd tmo rs1 rs2, T tmo -> Q0 rs1 rs2 ->
  fst (fst (wait_loop (EvRecv fd) tmo 0 rs1)) = fst (fst (wait_loop (EvRecv fd) tmo 0 rs2)) /\
  Rd (snd (fst (wait_loop (EvRecv fd) tmo 0 rs1))) (snd (fst (wait_loop (EvRecv fd) tmo 0 rs2))) /\
  Q (snd (wait_loop (EvRecv fd) tmo 0 rs1)) (snd (wait_loop (EvRecv fd) tmo 0 rs2)).
Lemma sim_greetings : forall Q0 Q, greets Q0 Q -> sim Q0 Q checkServerGreetings checkServerGreetings.
Proof.
  intros Q0 Q G. unfold checkServerGreetings. p1. p1.
  destruct (G (c_sock c) (c_timeout c) _ _ H H1) as (E & D & Q').
  cbn [e_recv set_recv].
  destruct (wait_loop (EvRecv (c_sock c)) (c_timeout c) 0 (e_recv e)) as [[o1 ev1] r1].
  destruct (wait_loop (EvRecv (c_sock c)) (c_timeout c) 0 r) as [[o2 ev2] r2]. cbn [fst snd] in *. subst o2.
  eapply sim_bind; [apply sub_refl|apply sim_set_recv; exact Q'|intros _].
  eapply sim_bind; [apply sub_refl|apply sim_emits; intros t1 t2 R; apply Rt_reads; assumption|intros _].
  qs. apply sim_greeting_result.
Qed.
Lemma sim_establish : forall Q0 Q, reads_alike Q -> sub Q0 Q -> greets Q0 Q -> sim Q0 Q establish establish.
Proof.
  intros Q0 Q A S G. unfold establish. p1.
  assert (I0 : forall (k1 k2 : Z -> M Z), (forall r, sim Q0 Q (k1 r) (k2 r)) -> sim Q0 Q (bind initializeSession k1) (bind initializeSession k2)).
  { intros k1 k2 K0. eapply sim_bind; [exact S|apply sim_initialize|exact K0]. }
  assert (W0 : forall r : Z, sim Q0 Q (ret r) (ret r)) by (intros r; eapply sim_weaken; [exact S|apply sim_ret]).
  assert (G0 : forall (k1 k2 : Z -> M Z), (forall r, sim Q Q (k1 r) (k2 r)) -> sim Q0 Q (bind checkServerGreetings k1) (bind checkServerGreetings k2)).
  { intros k1 k2 K0. eapply sim_bind; [apply sub_refl|apply sim_greetings; exact G|exact K0]. }
  destruct (c_kind c).
  - unfold establishPlain, sendServerIdentification. apply I0; intros r. destruct (negb _); [apply W0|]. apply G0; intros g. qs; first [apply sim_ehlo; exact A|apply sim_authenticate; exact A].
  - unfold establishOpp, sendServerIdentification, getServerSecureIdentification. apply I0; intros r. destruct (negb _); [apply W0|]. apply G0; intros g.
    qs; first [apply sim_ehlo; exact A|apply sim_authenticate; exact A|apply sim_upgrade; exact A|apply sim_starttls].
  - unfold establishForced, getServerSecureIdentification. apply I0; intros r. destruct (negb _); [apply W0|].
    eapply (sim_weaken Q0 Q Q); [apply sub_refl|]. intros s1 s2 L. apply (like_sub Q0 Q _ _ S) in L. revert s1 s2 L.
    match goal with |- forall s1 s2, _ -> fst (?m s1) = _ /\ _ => change (sim Q Q m m) end.
    qs; first [apply sim_ehlo; exact A|apply sim_authenticate; exact A|apply sim_greetings_tls|apply sim_starttls].
Qed.
Lemma sim_sendMail : forall Q0 Q m s1 s2, reads_alike Q -> sub Q0 Q -> greets Q0 Q ->
  (if c_conn (s_c s1) then like Q s1 s2 else like Q0 s1 s2) ->
  fst (sendMail m s1) = fst (sendMail m s2) /\ like Q (snd (sendMail m s1)) (snd (sendMail m s2)).
Proof.
  intros Q0 Q m s1 s2 A S G L.
  assert (U : forall s, sendMail m s = (r <- (if c_conn (s_c s) then ret 0 else establish);; if negb (r =? 0) then ret r else updc (set_conn true);; mail_transaction m) s)
    by reflexivity. rewrite !U. clear U.
  assert (E : c_conn (s_c s2) = c_conn (s_c s1)) by (destruct (c_conn (s_c s1)) eqn:X; destruct L as ((_ & o & _ & ->) & _); exact X).
  rewrite E. destruct (c_conn (s_c s1)).
  - assert (X : sim Q Q (r <- ret 0;; if negb (r =? 0) then ret r else updc (set_conn true);; mail_transaction m)
      (r <- ret 0;; if negb (r =? 0) then ret r else updc (set_conn true);; mail_transaction m)) by (qs; apply sim_transaction, A).
    exact (X s1 s2 L).
  - assert (X : sim Q0 Q (r <- establish;; if negb (r =? 0) then ret r else updc (set_conn true);; mail_transaction m)
      (r <- establish;; if negb (r =? 0) then ret r else updc (set_conn true);; mail_transaction m)).
    { eapply sim_bind; [apply sub_refl|apply sim_establish; assumption|]. intros r. qs. apply sim_transaction, A. }
    exact (X s1 s2 L).
Qed.
End pair.
