(** Proofs for C98: when a connection is made, the name was looked up before. *)

From Coq Require Import Ascii String List NArith ZArith Bool Lia.
From Verif Require Import Base ModelUtil ModelAddress ModelAttachment ModelErrors ModelReply ModelMessage
  ModelState ModelClient ModelWorld.
Import ListNotations.
Open Scope Z_scope.

(** Actions that neither look up a name nor connect. *)
Definition off_net (ev : event) : Prop := match ev with EvResolve _ _ | EvConnect _ _ _ => False | _ => True end.

Section Keeps.
Variable Iv : list event -> Prop.
Hypothesis off : forall t ev, off_net ev -> Iv t -> Iv (t ++ [ev]).

Definition keeps {A} (m : M A) : Prop := forall s, Iv (s_t s) -> Iv (s_t (snd (m s))).

Lemma keeps_ret : forall {A} (a : A), keeps (ret a).
Proof. intros A a s H. exact H. Qed.
Lemma keeps_stop : forall {A} (f : st -> outcome A), keeps (fun s => (f s, s)).
Proof. intros A f s H. exact H. Qed.
Lemma keeps_bind : forall {A C} (m : M A) (k : A -> M C), keeps m -> (forall a, keeps (k a)) -> keeps (bind m k).
Proof.
  intros A C m k Hm Hk s H. unfold bind. specialize (Hm s H).
  destruct (m s) as [o s']; cbn [fst snd] in *. destruct o as [a| |u| | |]; try exact Hm. apply Hk. exact Hm.
Qed.
Lemma keeps_getc : forall {C} (k : client -> M C), (forall c, keeps (k c)) -> keeps (bind getc k).
Proof. intros C k Hk s. exact (Hk (s_c s) s). Qed.
Lemma keeps_gete : forall {C} (k : env -> M C), (forall e, keeps (k e)) -> keeps (bind gete k).
Proof. intros C k Hk s. exact (Hk (s_e s) s). Qed.
Lemma keeps_updc : forall f, keeps (updc f).
Proof. intros f s H. exact H. Qed.
Lemma keeps_upde : forall f, keeps (upde f).
Proof. intros f s H. exact H. Qed.
Lemma keeps_emit : forall ev, off_net ev -> keeps (emit ev).
Proof. intros ev Hv s H. apply off; assumption. Qed.
Lemma keeps_emits : forall l, Forall off_net l -> keeps (emits l).
Proof.
  intros l F s H. unfold emits. cbn [snd s_t]. revert H. generalize (s_t s). induction F as [|ev l Hv F IH]; intros t H.
  - rewrite app_nil_r. exact H.
  - change (t ++ ev :: l) with (t ++ [ev] ++ l). rewrite app_assoc. apply IH. apply off; assumption.
Qed.

Lemma wait_loop_off : forall mk timeout rs wait o evs rest, (forall r, off_net (mk r)) ->
  wait_loop mk timeout wait rs = (o, evs, rest) -> Forall off_net evs.
Proof.
  intros mk timeout rs. induction rs as [|r rs IH]; intros wait o evs rest Hm H; cbn [wait_loop] in H.
  - injection H as _ <- _. constructor.
  - destruct (rbytes r) as [|x d].
    + destruct (wait <? timeout)%N.
      * destruct (wait_loop mk timeout (wait + 1) rs) as [[o' evs'] rest'] eqn:E.
        injection H as _ <- _. constructor; [apply Hm|constructor; [exact Logic.I|exact (IH _ _ _ _ Hm E)]].
      * injection H as _ <- _. repeat constructor. apply Hm.
    + injection H as _ <- _. repeat constructor. apply Hm.
Qed.
Lemma raw_loop_off : forall fd timeout rs wait got acc o evs rest,
  raw_loop fd timeout wait got acc rs = (o, evs, rest) -> Forall off_net evs.
Proof.
  intros fd timeout rs. induction rs as [|r rs IH]; intros wait got acc o evs rest H; cbn [raw_loop] in H.
  - injection H as _ <- _. constructor.
  - destruct (rbytes r) as [|x d].
    + destruct (is_err r && got); [injection H as _ <- _; repeat constructor|].
      destruct (wait + 1 <? timeout)%N; [|injection H as _ <- _; repeat constructor].
      destruct (raw_loop fd timeout (wait + 1) got acc rs) as [[o' evs'] rest'] eqn:E.
      injection H as _ <- _. repeat (constructor; [exact Logic.I|]). exact (IH _ _ _ _ _ _ E).
    + destruct (SERVERRESPONSE_BUFFER_LENGTH <=? length (x :: d))%nat; [injection H as _ <- _; repeat constructor|].
      destruct (wait <? timeout)%N; [|injection H as _ <- _; repeat constructor].
      destruct (raw_loop fd timeout wait true (acc ++ cstr (x :: d)) rs) as [[o' evs'] rest'] eqn:E.
      injection H as _ <- _. repeat (constructor; [exact Logic.I|]). exact (IH _ _ _ _ _ _ E).
Qed.

Create HintDb keeps.
Ltac b1 :=
  lazymatch goal with
  | |- keeps getc => apply keeps_stop
  | |- keeps (ret _) => apply keeps_ret
  | |- keeps (fail_ub _) => apply keeps_stop
  | |- keeps blocked => apply keeps_stop
  | |- keeps diverge => apply keeps_stop
  | |- keeps killed => apply keeps_stop
  | |- keeps (lift _) => apply keeps_stop
  | |- keeps (updc _) => apply keeps_updc
  | |- keeps (setLastSocketErrNo _) => apply keeps_updc
  | |- keeps (setLastServerResponse _) => apply keeps_updc
  | |- keeps (upde _) => apply keeps_upde
  | |- keeps (emit _) => apply keeps_emit; exact Logic.I
  | |- keeps (bind getc _) => apply keeps_getc; intros ?
  | |- keeps (bind gete _) => apply keeps_gete; intros ?
  | |- keeps (bind _ _) => apply keeps_bind; [|intros ?]
  | |- keeps (if ?b then _ else _) => destruct b
  | |- keeps (match ?x with _ => _ end) => destruct x eqn:?
  | |- keeps _ => solve [eauto with keeps nocore]
  end.
Ltac bs := repeat (b1; cbv zeta).

Lemma keeps_addLog : forall i p, keeps (addLog i p).
Proof. intros. unfold addLog. bs. Qed.
#[local] Hint Resolve keeps_addLog : keeps.
Lemma keeps_logc : forall i, keeps (logc i).
Proof. intros. apply keeps_addLog. Qed.
Lemma keeps_logs : forall i, keeps (logs i).
Proof. intros. apply keeps_addLog. Qed.
#[local] Hint Resolve keeps_logc keeps_logs : keeps.
Lemma keeps_log_errno : forall er, keeps (log_errno er).
Proof. intros. unfold log_errno. bs. Qed.
#[local] Hint Resolve keeps_log_errno : keeps.
Lemma keeps_fcntl : forall m, keeps (sys_fcntl m).
Proof. intros. unfold sys_fcntl. bs. Qed.
#[local] Hint Resolve keeps_fcntl : keeps.
Lemma keeps_nonblocking : keeps setSocketToNonBlocking.
Proof. unfold setSocketToNonBlocking. bs. Qed.
Lemma keeps_blocking : keeps setSocketToBlocking.
Proof. unfold setSocketToBlocking. bs. Qed.
Lemma keeps_wait_connect : keeps wait_connect.
Proof. unfold wait_connect. bs. Qed.
#[local] Hint Resolve keeps_nonblocking keeps_blocking keeps_wait_connect : keeps.
Lemma keeps_greeting_result : forall r, keeps (greeting_result r).
Proof. intros. unfold greeting_result. bs. Qed.
#[local] Hint Resolve keeps_greeting_result : keeps.
Lemma keeps_greetings : keeps checkServerGreetings.
Proof.
  unfold checkServerGreetings. apply keeps_getc; intros c. apply keeps_gete; intros e.
  destruct (wait_loop _ _ _ _) as [[o evs] rest] eqn:E.
  apply keeps_bind; [b1|intros _]. apply keeps_bind; [|intros _; bs].
  apply keeps_emits. refine (wait_loop_off _ _ _ _ _ _ _ _ E); intros ?; exact Logic.I.
Qed.
Lemma keeps_wait_bio : keeps wait_bio.
Proof.
  unfold wait_bio, wait_null_bio. apply keeps_getc; intros c. destruct (c_bio c) as [b|]; [|bs].
  apply keeps_gete; intros e.
  destruct (wait_loop _ _ _ _) as [[o evs] rest] eqn:E.
  apply keeps_bind; [b1|intros _]. apply keeps_bind; [|intros _; bs].
  apply keeps_emits. refine (wait_loop_off _ _ _ _ _ _ _ _ E); intros ?; exact Logic.I.
Qed.
#[local] Hint Resolve keeps_greetings keeps_wait_bio : keeps.
Lemma keeps_greetings_tls : keeps checkServerGreetingsTLS.
Proof. unfold checkServerGreetingsTLS. bs. Qed.
Lemma keeps_raw_reply : keeps getRawCommandReply.
Proof.
  unfold getRawCommandReply. apply keeps_bind; [bs|intros _]. apply keeps_getc; intros c.
  apply keeps_gete; intros e.
  destruct (raw_loop _ _ _ _ _ _) as [[o evs] rest] eqn:E.
  apply keeps_bind; [b1|intros _]. apply keeps_bind; [|intros _; bs].
  apply keeps_emits. exact (raw_loop_off _ _ _ _ _ _ _ _ _ E).
Qed.
Lemma keeps_tls_reply : keeps getServerReplyTLS.
Proof. unfold getServerReplyTLS. bs. Qed.
#[local] Hint Resolve keeps_greetings_tls keeps_raw_reply keeps_tls_reply : keeps.
Lemma keeps_reply : keeps getServerReply.
Proof. unfold getServerReply. bs. Qed.
Lemma keeps_send : forall d, keeps (sys_send d).
Proof. intros. unfold sys_send. bs. Qed.
Lemma keeps_puts : forall b d, keeps (sys_puts b d).
Proof. intros. unfold sys_puts. bs. Qed.
#[local] Hint Resolve keeps_reply keeps_send keeps_puts : keeps.
Lemma keeps_cmd_with : forall k d err, keeps k -> keeps (sendCommandPtr_with k d err).
Proof. intros. unfold sendCommandPtr_with, sendRaw2_with, sendCommandTLS_with. bs. Qed.
#[local] Hint Resolve keeps_cmd_with : keeps.
Lemma keeps_cleanup_f : forall n, keeps (cleanup_f n).
Proof.
  induction n as [|n IH]; cbn [cleanup_f]; unfold sendQuit_with, free_tls, close_socket; bs.
Qed.
Lemma keeps_cleanup : keeps cleanup.
Proof.
  intros s. exact (keeps_cleanup_f (cleanup_fuel (s_e s)) s).
Qed.
#[local] Hint Resolve keeps_cleanup : keeps.
Lemma keeps_cmd : forall d err, keeps (sendCommandPtr d err).
Proof. intros. apply keeps_cmd_with, keeps_cleanup. Qed.
Lemma keeps_quit : keeps sendQuitCommand.
Proof. unfold sendQuitCommand, sendQuit_with. bs. Qed.
#[local] Hint Resolve keeps_cmd keeps_quit : keeps.
Lemma keeps_raw3 : forall d err tmo, keeps (sendRaw3 d err tmo).
Proof. intros. unfold sendRaw3, sendRaw2, sendRaw2_with. bs. Qed.
#[local] Hint Resolve keeps_raw3 : keeps.
Lemma keeps_feedback : forall d err tmo, keeps (sendFeedback d err tmo).
Proof. intros. unfold sendFeedback, sendFeedbackTLS. bs. Qed.
#[local] Hint Resolve keeps_feedback : keeps.
Lemma keeps_fb : forall d err tmo, keeps (sendFeedbackPtr d err tmo).
Proof. intros. unfold sendFeedbackPtr. bs. Qed.
#[local] Hint Resolve keeps_fb : keeps.
Lemma keeps_ehlo_loop : forall n tmo o, keeps (ehlo_loop n tmo o).
Proof. induction n as [|n IH]; intros tmo o; cbn [ehlo_loop]; bs. Qed.
#[local] Hint Resolve keeps_ehlo_loop : keeps.
Lemma keeps_ehlo : forall err tmo, keeps (ehlo_with err tmo).
Proof. intros. unfold ehlo_with. bs. Qed.
#[local] Hint Resolve keeps_ehlo : keeps.
Lemma keeps_auth : keeps authenticateClient.
Proof. unfold authenticateClient, authPlain, authLogin, authXOauth2. bs. Qed.
#[local] Hint Resolve keeps_auth : keeps.
Lemma keeps_auth_if : keeps authenticate_if_needed.
Proof. unfold authenticate_if_needed. bs. Qed.
#[local] Hint Resolve keeps_auth_if : keeps.

Lemma keeps_fresh : keeps fresh_id.
Proof. unfold fresh_id. bs. Qed.
#[local] Hint Resolve keeps_fresh : keeps.

Lemma keeps_starttls : keeps startTLSNegotiation.
Proof. unfold startTLSNegotiation. bs. Qed.

#[local] Hint Resolve keeps_starttls : keeps.
Lemma keeps_identify : keeps sendServerIdentification.
Proof. apply keeps_ehlo. Qed.
Lemma keeps_identify_tls : keeps getServerSecureIdentification.
Proof. unfold getServerSecureIdentification. bs. Qed.
#[local] Hint Resolve keeps_identify keeps_identify_tls : keeps.
Hypothesis keeps_initialize : keeps initializeSession.
#[local] Hint Resolve keeps_initialize : keeps.
Lemma keeps_establish : keeps establish.
Proof.
  unfold establish, establishPlain, establishOpp, establishForced, upgradeToSecureConnection. bs.
Qed.
#[local] Hint Resolve keeps_establish : keeps.
Lemma keeps_mail_from : forall l n, keeps (mail_from_loop l n).
Proof. induction l as [|f l IH]; intros n; cbn [mail_from_loop]; bs. Qed.
Lemma keeps_add : forall l n, keeps (addMailRecipients l n).
Proof. induction l as [|f l IH]; intros n; cbn [addMailRecipients]; bs. Qed.
#[local] Hint Resolve keeps_mail_from keeps_add : keeps.
Lemma keeps_recipients_loop : forall l, keeps (recipients_loop l).
Proof. induction l as [|a l IH]; cbn [recipients_loop]; bs. Qed.
#[local] Hint Resolve keeps_recipients_loop : keeps.
Lemma keeps_recipients : forall m, keeps (setMailRecipients m).
Proof. intros. unfold setMailRecipients. bs. Qed.
Lemma keeps_header : forall f v err, keeps (addMailHeader f v err).
Proof. intros. unfold addMailHeader. bs. Qed.
#[local] Hint Resolve keeps_recipients keeps_header : keeps.
Lemma keeps_address_header : forall f a, keeps (address_header f a).
Proof. intros. unfold address_header. bs. Qed.
#[local] Hint Resolve keeps_address_header : keeps.
Lemma keeps_headers : forall m, keeps (setMailHeaders m).
Proof. intros. unfold setMailHeaders. bs. Qed.
Lemma keeps_chunks : forall l err, keeps (send_chunks l err).
Proof. induction l as [|x l IH]; intros err; cbn [send_chunks]; bs. Qed.
#[local] Hint Resolve keeps_headers keeps_chunks : keeps.
Lemma keeps_body : forall m, keeps (setMailBody m).
Proof. intros. unfold setMailBody. bs. Qed.
#[local] Hint Resolve keeps_body : keeps.
Lemma keeps_sendMail : forall m, keeps (sendMail m).
Proof. intros. unfold sendMail, mail_transaction. bs. Qed.


End Keeps.
