(** What sending a mail leaves of the settings of a client. *)

From Coq Require Import Ascii String List NArith ZArith Bool Lia.
From Verif Require Import Base ModelAddress ModelAttachment ModelMessage ModelReply ModelErrors ModelState ModelClient ModelWorld SpecPast.
Import ListNotations.
Open Scope Z_scope.

Definition kp {A} (m : M A) : Prop := forall s, as_new (s_c (snd (m s))) = as_new (s_c s).
Lemma kp_bind : forall {A C} (m : M A) (k : A -> M C), kp m -> (forall a, kp (k a)) -> kp (bind m k).
Proof.
  intros A C m k H K s. unfold bind. specialize (H s). destruct (m s) as [[a| | | | |] s']; cbn [snd] in *; try exact H.
  rewrite <- H. apply K.
Qed.
Lemma kp_same : forall {A} (f : st -> outcome A), kp (fun s => (f s, s)). Proof. intros A f s. reflexivity. Qed.
Lemma kp_ret : forall {A} (a : A), kp (ret a). Proof. intros A a s. reflexivity. Qed.
Lemma kp_lift : forall {A} (o : outcome A), kp (lift o). Proof. intros A a s. reflexivity. Qed.
Lemma kp_ub : forall {A} u, kp (@fail_ub A u). Proof. intros A u s. reflexivity. Qed.
Lemma kp_blocked : forall {A}, kp (@blocked A). Proof. intros A s. reflexivity. Qed.
Lemma kp_diverge : forall {A}, kp (@diverge A). Proof. intros A s. reflexivity. Qed.
Lemma kp_killed : forall {A}, kp (@killed A). Proof. intros A s. reflexivity. Qed.
Lemma kp_getc : kp getc. Proof. intros s. reflexivity. Qed.
Lemma kp_gete : kp gete. Proof. intros s. reflexivity. Qed.
Lemma kp_upde : forall f, kp (upde f). Proof. intros f s. reflexivity. Qed.
Lemma kp_emit : forall l, kp (emit l). Proof. intros l s. reflexivity. Qed.
Lemma kp_emits : forall l, kp (emits l). Proof. intros l s. reflexivity. Qed.
Lemma kp_updc : forall f, (forall c, as_new (f c) = as_new c) -> kp (updc f). Proof. intros f H s. apply H. Qed.
Ltac kb := repeat (lazymatch goal with
  | |- kp (let _ := _ in _) => cbv zeta
  | |- kp (bind _ _) => apply kp_bind; [|intros ?]
  | |- kp (ret _) => apply kp_ret
  | |- kp (lift _) => apply kp_lift
  | |- kp (fail_ub _) => apply kp_ub
  | |- kp blocked => apply kp_blocked
  | |- kp diverge => apply kp_diverge
  | |- kp killed => apply kp_killed
  | |- kp getc => apply kp_getc
  | |- kp gete => apply kp_gete
  | |- kp (upde _) => apply kp_upde
  | |- kp (emit _) => apply kp_emit
  | |- kp (emits _) => apply kp_emits
  | |- kp (updc _) => apply kp_updc; intros []; reflexivity
  | |- kp (if ?b then _ else _) => destruct b
  | |- kp (match ?x with _ => _ end) => destruct x
  end).
Lemma kp_addLog : forall i p, kp (addLog i p). Proof. intros i p. unfold addLog. kb. Qed.
Lemma kp_errno : forall n, kp (setLastSocketErrNo n). Proof. intros n. unfold setLastSocketErrNo. kb. Qed.
Lemma kp_log_errno : forall n, kp (log_errno n). Proof. intros n. unfold log_errno. kb; first [apply kp_errno|apply kp_addLog]. Qed.
Lemma kp_resp : forall d, kp (setLastServerResponse d). Proof. intros n. unfold setLastServerResponse. kb. Qed.
Lemma kp_fcntl : forall m, kp (sys_fcntl m). Proof. intros m. unfold sys_fcntl. kb. Qed.
Lemma kp_nonblocking : kp setSocketToNonBlocking. Proof. unfold setSocketToNonBlocking. kb; first [apply kp_fcntl|apply kp_log_errno]. Qed.
Lemma kp_blocking : kp setSocketToBlocking. Proof. unfold setSocketToBlocking. kb; first [apply kp_fcntl|apply kp_log_errno]. Qed.
Lemma kp_init : kp initializeSession.
Proof.
  unfold initializeSession, initializeSessionPOSIX, sys_gethostbyname, sys_connect, wait_connect. kb; lazymatch goal with
  | |- kp (log_errno _) => apply kp_log_errno
  | |- kp (logc _) => apply kp_addLog
  | |- kp setSocketToNonBlocking => apply kp_nonblocking
  | |- kp setSocketToBlocking => apply kp_blocking
  end.
Qed.
Lemma kp_greetings : kp checkServerGreetings. Proof. unfold checkServerGreetings, greeting_result. kb; apply kp_addLog. Qed.
Lemma kp_wait_bio : kp wait_bio. Proof. unfold wait_bio, wait_null_bio. kb. Qed.
Lemma kp_greetings_tls : kp checkServerGreetingsTLS. Proof. unfold checkServerGreetingsTLS, greeting_result. kb; first [apply kp_wait_bio|apply kp_addLog]. Qed.
Lemma kp_raw_reply : kp getRawCommandReply. Proof. unfold getRawCommandReply. kb; first [apply kp_nonblocking|apply kp_blocking|apply kp_resp|apply kp_addLog]. Qed.
Lemma kp_reply : kp getServerReply.
Proof. unfold getServerReply, getServerReplyTLS. kb; first [apply kp_raw_reply|apply kp_wait_bio|apply kp_resp|apply kp_addLog]. Qed.
Lemma kp_cmd_with : forall cl d err, kp cl -> kp (sendCommandPtr_with cl d err).
Proof. intros cl d err H. unfold sendCommandPtr_with, sendRaw2_with, sendCommandTLS_with, sys_send, sys_puts. kb; first [apply kp_errno|exact H]. Qed.
Lemma kp_cleanup_f : forall f, kp (cleanup_f f).
Proof. induction f as [|f IH]; cbn [cleanup_f]; [apply kp_diverge|]. unfold sendQuit_with, close_socket, free_tls. kb; first [apply kp_addLog|apply kp_cmd_with, IH]. Qed.
Lemma kp_cleanup : kp cleanup. Proof. intros s. unfold cleanup. apply kp_cleanup_f. Qed.
Lemma kp_cmd : forall d err, kp (sendCommandPtr d err). Proof. intros. apply kp_cmd_with, kp_cleanup. Qed.
Lemma kp_raw3 : forall d err tmo, kp (sendRaw3 d err tmo).
Proof. intros. unfold sendRaw3, sendRaw2, sendRaw2_with, sys_send. kb; first [apply kp_errno|apply kp_cleanup|apply kp_raw_reply]. Qed.
Lemma kp_fb1 : forall d err tmo, kp (sendFeedback d err tmo).
Proof. intros. unfold sendFeedback, sendFeedbackTLS, sys_puts. kb; first [apply kp_errno|apply kp_cleanup|apply kp_reply|apply kp_raw3]. Qed.
Lemma kp_fb : forall d err tmo, kp (sendFeedbackPtr d err tmo).
Proof. intros. unfold sendFeedbackPtr. kb; first [apply kp_fb1|apply kp_raw3]. Qed.
Lemma kp_ehlo_loop : forall f t o, kp (ehlo_loop f t o).
Proof. induction f as [|f IH]; intros t o; cbn [ehlo_loop]; kb; first [apply kp_reply|apply IH]. Qed.
Lemma kp_ehlo : forall err tmo, kp (ehlo_with err tmo).
Proof. intros. unfold ehlo_with. kb; first [apply kp_addLog|apply kp_fb1|apply kp_ehlo_loop]. Qed.
Lemma kp_auth : kp authenticate_if_needed.
Proof. unfold authenticate_if_needed, authenticateClient, authPlain, authLogin, authXOauth2. kb; first [apply kp_addLog|apply kp_fb]. Qed.
Lemma kp_starttls : kp startTLSNegotiation.
Proof. unfold startTLSNegotiation, fresh_id. kb; first [apply kp_addLog|apply kp_errno|apply kp_cleanup]. Qed.
Lemma kp_from : forall l r, kp (mail_from_loop l r).
Proof. induction l as [|x l IH]; intros r; cbn [mail_from_loop]; kb; first [apply kp_addLog|apply kp_fb|apply IH]. Qed.
Lemma kp_add : forall l r, kp (addMailRecipients l r).
Proof. induction l as [|x l IH]; intros r; cbn [addMailRecipients]; kb; first [apply kp_addLog|apply kp_fb|apply IH]. Qed.
Lemma kp_rcpts : forall l, kp (recipients_loop l).
Proof. induction l as [|[k|x] l IH]; cbn [recipients_loop]; [apply kp_ret|exact IH|]. kb; first [apply kp_add|apply IH]. Qed.
Lemma kp_chunks : forall l err, kp (send_chunks l err).
Proof. induction l as [|x l IH]; intros err; cbn [send_chunks]; kb; first [apply kp_cmd|apply IH]. Qed.
Lemma kp_transaction : forall m, kp (mail_transaction m).
Proof.
  intros m. unfold mail_transaction, setMailRecipients, setMailHeaders, addMailHeader, address_header, setMailBody, sendQuitCommand, sendQuit_with. change (sendCommandPtr_with cleanup) with sendCommandPtr.
  kb; lazymatch goal with
  | |- kp (logc _) => apply kp_addLog
  | |- kp (sendFeedbackPtr _ _ _) => apply kp_fb
  | |- kp (sendCommandPtr _ _) => apply kp_cmd
  | |- kp (send_chunks _ _) => apply kp_chunks
  | |- kp (mail_from_loop _ _) => apply kp_from
  | |- kp (recipients_loop _) => apply kp_rcpts
  | |- kp cleanup => apply kp_cleanup
  | |- kp (addMailHeader _ _ _) => unfold addMailHeader; kb; first [apply kp_addLog|apply kp_cmd]
  | |- kp (address_header _ _) => unfold address_header, addMailHeader; kb; first [apply kp_addLog|apply kp_cmd]
  end.
Qed.

(** The settings stay, but an opportunistic client may set its flag. *)
Definition sets (s s' : st) : Prop := as_new (s_c s') = as_new (s_c s) \/ c_kind (s_c s) = KOpp /\ as_new (s_c s') = as_new (set_keep true (s_c s)).
Definition sp {A} (m : M A) : Prop := forall s, sets s (snd (m s)).
Definition so {A} (m : M A) : Prop := forall s, c_kind (s_c s) = KOpp -> sets s (snd (m s)).
Lemma kp_sp : forall {A} (m : M A), kp m -> sp m. Proof. intros A m H s. left. apply H. Qed.
Lemma as_new_kind : forall c d, as_new c = as_new d -> c_kind c = c_kind d. Proof. intros c d H. exact (f_equal c_kind H). Qed.
Lemma as_new_set : forall c d, as_new c = as_new d -> as_new (set_keep true c) = as_new (set_keep true d).
Proof. intros [] [] H. unfold as_new, set_keep in *. cbn in *. injection H as <- <- <- <- <- <- <- <- <-. reflexivity. Qed.
Lemma so_bind : forall {A C} (m : M A) (k : A -> M C), kp m -> (forall a, so (k a)) -> so (bind m k).
Proof.
  intros A C m k H K s O. unfold bind. specialize (H s). destruct (m s) as [[a| | | | |] s']; cbn [snd] in *; try (left; exact H).
  assert (O' : c_kind (s_c s') = KOpp) by (rewrite (as_new_kind _ _ H); exact O).
  destruct (K a s' O') as [E|[_ E]]; [left; congruence|]. right. split; [exact O|]. rewrite E. apply as_new_set, H.
Qed.
Lemma kp_so : forall {A} (m : M A), kp m -> so m. Proof. intros A m H s _. left. apply H. Qed.
Lemma so_keep : so (updc (set_keep true);; ret 0).
Proof. intros s O. right. split; [exact O|reflexivity]. Qed.
Lemma so_opp : so establishOpp.
Proof.
  assert (G : forall i, kp (if negb (i =? STATUS_CODE_REQUESTED_MAIL_ACTION_OK_OR_COMPLETED) then ret i else authenticate_if_needed)) by (intros i; kb; apply kp_auth).
  unfold establishOpp. apply so_bind; [exact kp_init|]. intros r. destruct (negb _); [apply kp_so, kp_ret|].
  apply so_bind; [exact kp_greetings|]. intros g. destruct (negb _); [apply kp_so, kp_ret|].
  apply so_bind; [apply kp_ehlo|]. intros i. destruct (negb _); [apply kp_so, kp_ret|].
  apply so_bind; [exact kp_getc|]. intros c. apply so_bind; [apply kp_lift|]. intros [].
  - apply kp_so. unfold upgradeToSecureConnection, getServerSecureIdentification. kb; first [apply kp_addLog|apply kp_raw3|apply kp_starttls|apply kp_ehlo|apply kp_auth].
  - apply so_bind; [apply kp_addLog|]. intros _. exact so_keep.
Qed.
Lemma sp_establish : sp establish.
Proof.
  intros s. unfold establish, bind, getc. destruct (c_kind (s_c s)) eqn:K.
  - apply kp_sp. unfold establishPlain, sendServerIdentification. kb; first [apply kp_init|apply kp_greetings|apply kp_ehlo|apply kp_auth].
  - apply so_opp, K.
  - apply kp_sp. unfold establishForced, getServerSecureIdentification. kb; first [apply kp_init|apply kp_starttls|apply kp_greetings_tls|apply kp_addLog|apply kp_ehlo|apply kp_auth].
Qed.
Lemma sp_bind : forall {A C} (m : M A) (k : A -> M C), sp m -> (forall a, kp (k a)) -> sp (bind m k).
Proof.
  intros A C m k H K s. unfold bind. specialize (H s). destruct (m s) as [[a| | | | |] s']; cbn [snd] in *; try exact H.
  unfold sets in *. rewrite (K a s'). exact H.
Qed.
Lemma sp_send : forall m, sp (sendMail m).
Proof.
  intros m. unfold sendMail. intros s. unfold bind at 1, getc.
  assert (K : forall r, kp (if negb (r =? 0) then ret r else updc (set_conn true);; mail_transaction m)) by (intros r; kb; apply kp_transaction).
  destruct (c_conn (s_c s)); apply sp_bind; try exact K; [apply kp_sp, kp_ret|apply sp_establish].
Qed.
Lemma send_settings : forall i m w c c', get_client w i = Some c -> get_client (snd (step (OSend i m) w)) i = Some c' ->
  as_new c' = as_new c \/ c_kind c = KOpp /\ as_new c' = as_new (set_keep true c).
Proof.
  intros i m w c c' G G'. cbn [step] in G'. unfold run_on in G'. rewrite G in G'. pose proof (sp_send m (mkSt c (w_env w) (w_trace w))) as S.
  destruct (sendMail m _) as [o q]. cbn [fst snd] in *. unfold sets in S. cbn [s_c] in S.
  assert (P : forall (l : list (option client)) (v d : client), nth_error l i = Some (Some d) -> nth_error (list_set l i (Some v)) i = Some (Some v)).
  { clear. induction i as [|i IH]; intros [|y l] v d H; cbn in *; try discriminate; [reflexivity|exact (IH l v d H)]. }
  unfold get_client in *. cbn [w_clients] in *. destruct (nth_error (w_clients w) i) as [[a|]|] eqn:N; try discriminate.
  rewrite (P _ _ _ N) in G'. injection G' as <-. exact S.
Qed.
