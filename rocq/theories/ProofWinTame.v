(** Undefined behaviour that the Windows build does not have: the descriptor
    set of select() and the address buffer filled from gethostbyname(). *)

From Coq Require Import Ascii String List NArith ZArith Bool Lia.
From Verif Require Import Base ModelUtil ModelBase64 ModelAddress ModelAttachment
  ModelErrors ModelReply ModelMessage ModelState ModelClient ModelWorld ProofEstablish ModelWin SpecWin
  ProofWin2 ProofWin3 ProofWinRef ProofWinRef2 ProofWinRef3 ProofWinRef4.
Import ListNotations.
Open Scope Z_scope.

Definition tame (u : ub) : Prop := match u with UB_FdSet | UB_BufferOverflow BufHost => False | _ => True end.
Definition tameM {A} (m : M A) : Prop := forall s u, fst (m s) = Undef u -> tame u.
Definition tameW {A} (m : W A) : Prop := forall v u, fst (m v) = Undef u -> tame u.

Lemma tm_bind {A C} (m : M A) (k : A -> M C) : tameM m -> (forall a, tameM (k a)) -> tameM (bind m k).
Proof.
  intros H J s u E. specialize (H s). unfold bind in E. destruct (m s) as [o s1]. cbn in H.
  destruct o; cbn in E; try discriminate E; [exact (J _ _ _ E)|]. injection E as ->. auto.
Qed.
Lemma tm_lift {A} (o : outcome A) : (forall u, o = Undef u -> tame u) -> tameM (lift o).
Proof. intros H s u E. apply H. exact E. Qed.
Lemma tm_quiet {A} (m : M A) : (forall s u, fst (m s) <> Undef u) -> tameM m.
Proof. intros H s u E. destruct (H s u E). Qed.
Lemma tm_ub {A} u : tame u -> tameM (@fail_ub A u).
Proof. intros H s v E. injection E as <-. exact H. Qed.
Ltac tm := repeat match goal with
  | |- tameM (bind _ _) => apply tm_bind; [|intros ?]
  | |- tameM (fail_ub _) => apply tm_ub; exact Logic.I
  | |- tameM (lift Throw) => apply tm_lift; discriminate
  | |- tameM (match ?x with _ => _ end) => destruct x
  | H : tameM ?m |- tameM ?m => exact H
  | |- tameM _ => apply tm_quiet; discriminate
  end.
Lemma tm_addLog a b : tameM (addLog a b).
Proof. unfold addLog. apply tm_bind; [tm|]. intros c. destruct (c_log c); [|tm]. cbv zeta. tm. Qed.
Lemma tm_logc a : tameM (logc a). Proof. apply tm_addLog. Qed.
Lemma tm_logs a : tameM (logs a). Proof. apply tm_addLog. Qed.
Lemma tm_errno a : tameM (log_errno a).
Proof. pose proof tm_logc. unfold log_errno. tm; auto. Qed.
Lemma tm_emits evs : tameM (emits evs).
Proof. intros s u E. discriminate E. Qed.
Lemma tm_raw_loop fd to : forall rs wt got acc u, fst (fst (raw_loop fd to wt got acc rs)) = Undef u -> tame u.
Proof.
  induction rs as [|r rs IH]; intros wt got acc u E; cbn [raw_loop] in E; [discriminate E|].
  destruct (rbytes r) as [|x d].
  - destruct (is_err r && got); [discriminate E|]. destruct (wt + 1 <? to)%N; [|discriminate E].
    specialize (IH (wt + 1)%N got acc u). destruct (raw_loop fd to (wt + 1)%N got acc rs) as [[o e] l]. auto.
  - destruct (_ <=? _)%nat; [injection E as <-; exact Logic.I|]. destruct (wt <? to)%N; [|discriminate E].
    match type of E with context [raw_loop ?a ?b ?c ?d ?e ?f] => specialize (IH c d e u); destruct (raw_loop a b c d e f) as [[o ev] l] end. auto.
Qed.
Lemma tm_wait_loop mk to : forall rs wt u, fst (fst (wait_loop mk to wt rs)) <> Undef u.
Proof.
  induction rs as [|r rs IH]; intros wt u E; cbn [wait_loop] in E; [discriminate E|].
  destruct (rbytes r) as [|x d]; [|discriminate E]. destruct (wt <? to)%N; [|discriminate E].
  specialize (IH (wt + 1)%N u). destruct (wait_loop mk to (wt + 1)%N rs) as [[o e] l]. auto.
Qed.
Lemma tm_wait_bio : tameM wait_bio.
Proof.
  unfold wait_bio. apply tm_bind; [tm|]. intros c. destruct (c_bio c) as [b|]; [|unfold wait_null_bio; tm].
  apply tm_bind; [tm|]. intros e. assert (L := tm_wait_loop (EvRead (bio_id b)) (c_timeout c) (e_bread e) 0).
  destruct (wait_loop _ _ _ _) as [[o evs] l]. apply tm_bind; [tm|]. intros _. apply tm_bind; [apply tm_emits|]. intros _.
  apply tm_lift. intros u E. destruct (L u E).
Qed.
Lemma tm_greeting r : tameM (greeting_result r).
Proof. unfold greeting_result. destruct r; [|tm]. cbv zeta. apply tm_bind; [apply tm_logs|]. intros _. apply tm_bind; [destruct (_ =? _); [apply tm_logc|tm]|]. intros _. tm. Qed.
Lemma tm_greetings : tameM checkServerGreetings.
Proof.
  unfold checkServerGreetings. apply tm_bind; [tm|]. intros c. apply tm_bind; [tm|]. intros e.
  assert (L := tm_wait_loop (EvRecv (c_sock c)) (c_timeout c) (e_recv e) 0). destruct (wait_loop _ _ _ _) as [[o evs] l].
  apply tm_bind; [tm|]. intros _. apply tm_bind; [apply tm_emits|]. intros _.
  apply tm_bind; [apply tm_lift; intros u E; destruct (L u E)|]. intros r. apply tm_greeting.
Qed.
Lemma tm_reply_tls : tameM getServerReplyTLS.
Proof. unfold getServerReplyTLS. apply tm_bind; [apply tm_wait_bio|]. intros [d|]; [|tm]. cbv zeta. unfold setLastServerResponse. apply tm_bind; [tm|]. intros _. apply tm_bind; [apply tm_logs|]. intros _. tm. Qed.
Lemma tm_greetings_tls : tameM checkServerGreetingsTLS.
Proof. unfold checkServerGreetingsTLS. apply tm_bind; [apply tm_wait_bio|]. intros r. apply tm_greeting. Qed.
Lemma tm_send d : tameM (sys_send d). Proof. unfold sys_send. tm. Qed.
Lemma tm_puts b d : tameM (sys_puts b d). Proof. unfold sys_puts. tm. Qed.
Lemma tm_close : tameM close_socket. Proof. unfold close_socket. tm. Qed.
Lemma tm_free : tameM free_tls. Proof. unfold free_tls. tm. Qed.
Lemma tm_connect : tameM sys_connect.
Proof. unfold sys_connect. apply tm_bind; [tm|]. intros c. apply tm_bind; [tm|]. intros e. cbv zeta. destruct (e_conn e) as [|r l]; tm. Qed.
Lemma tm_starttls r : tameM (lift (isStartTLSSupported r)).
Proof. apply tm_lift. intros u E. apply starttls_undef in E as [-> _]. exact Logic.I. Qed.
Lemma tm_body fs m : tameM (lift (body_real fs m)).
Proof. apply tm_lift. intros u E. unfold body_real in E. destruct (m_atts m) as [[|n]|[|x l]]; try discriminate E. injection E as <-. exact Logic.I. Qed.
Lemma tm_recv : tameM (c <- getc;; e <- gete;;
  let '(o, evs, rest) := raw_loop (c_sock c) (c_timeout c) 0 false [] (e_recv e) in upde (set_recv rest);; emits evs;; lift o).
Proof.
  apply tm_bind; [tm|]. intros c. apply tm_bind; [tm|]. intros e.
  assert (L := tm_raw_loop (c_sock c) (c_timeout c) (e_recv e) 0%N false []).
  destruct (raw_loop _ _ _ _ _ _) as [[o evs] l]. apply tm_bind; [tm|]. intros _. apply tm_bind; [apply tm_emits|]. intros _. apply tm_lift. exact L.
Qed.
Lemma tm_recv2 sock to : tameM (e <- gete;;
  let '(o, evs, rest) := raw_loop sock to 0 false [] (e_recv e) in upde (set_recv rest);; emits evs;; lift o).
Proof.
  apply tm_bind; [tm|]. intros e. assert (L := tm_raw_loop sock to (e_recv e) 0%N false []).
  destruct (raw_loop _ _ _ _ _ _) as [[o evs] l]. apply tm_bind; [tm|]. intros _. apply tm_bind; [apply tm_emits|]. intros _. apply tm_lift. exact L.
Qed.

Ltac tb := repeat match goal with
  | |- tameM (logc _) => apply tm_logc
  | |- tameM (logs _) => apply tm_logs
  | |- tameM (addLog _ _) => apply tm_addLog
  | |- tameM (log_errno _) => apply tm_errno
  | |- tameM (sys_send _) => apply tm_send
  | |- tameM (sys_puts _ _) => apply tm_puts
  | |- tameM close_socket => apply tm_close
  | |- tameM free_tls => apply tm_free
  | |- tameM getServerReplyTLS => apply tm_reply_tls
  | |- tameM checkServerGreetingsTLS => apply tm_greetings_tls
  | |- tameM checkServerGreetings => apply tm_greetings
  | |- tameM sys_connect => apply tm_connect
  | |- tameM (lift (isStartTLSSupported _)) => apply tm_starttls
  | |- tameM (lift (body_real _ _)) => apply tm_body
  | |- tameM (bind gete (fun _ => let '(_, _) := raw_loop _ _ _ _ _ _ in _)) => apply tm_recv2
  | |- tameM (bind _ _) => apply tm_bind; [|intros ?]
  | |- tameM (fail_ub _) => apply tm_ub; exact Logic.I
  | |- tameM (match ?x with _ => _ end) => destruct x
  | |- tameM _ => apply tm_quiet; discriminate
  end.

Lemma tw_bind {A C} (m : W A) (k : A -> W C) : tameW m -> (forall a, tameW (k a)) -> tameW (wbind m k).
Proof.
  intros H J s u E. specialize (H s). unfold wbind in E. destruct (m s) as [o s1]. cbn in H.
  destruct o; cbn in E; try discriminate E; [exact (J _ _ _ E)|]. injection E as ->. auto.
Qed.
Lemma tw_base {A} (m : M A) : tameM m -> tameW (base m).
Proof. intros H v u E. apply (H (mkSt (v_c v) (v_e v) [])). unfold base in E. destruct (m _). exact E. Qed.
Lemma tw_quiet {A} (m : W A) : (forall s u, fst (m s) <> Undef u) -> tameW m.
Proof. intros H s u E. destruct (H s u E). Qed.
Lemma tw_next {T} get set (d : T) : tameW (next get set d).
Proof. apply tw_quiet. intros v u. unfold next. now destruct (get (v_w v)). Qed.
Lemma tw_msg er : tameW (addWSAMessage er).
Proof. intros v u E. unfold addWSAMessage in E. destruct (x_format (v_w v) er); [|discriminate E]. exact (tw_base _ (tm_logc _) v u E). Qed.
Ltac on := repeat match goal with
  | |- tameW (wbind _ _) => apply tw_bind; [|intros ?]
  | |- tameW (base _) => apply tw_base; tb
  | |- tameW (next _ _ _) => apply tw_next
  | |- tameW (addWSAMessage _) => apply tw_msg
  | H : tameW ?m |- tameW ?m => exact H
  | |- tameW (match ?x with _ => _ end) => destruct x
  | |- tameW (wret _) => apply tw_quiet; discriminate
  | |- tameW (set_on _) => apply tw_quiet; discriminate
  | |- tameW get_on => apply tw_quiet; discriminate
  | |- tameW (wput _) => apply tw_quiet; discriminate
  end.
Lemma t_doclean : tameW doWSACleanup. Proof. unfold doWSACleanup. on. Qed.
Lemma t_init : tameW initializeSessionW.
Proof. unfold initializeSessionW, initializeSessionWinSock. pose proof t_doclean. on. Qed.
Lemma t_raw_reply : tameW getRawCommandReplyW.
Proof. unfold getRawCommandReplyW, setSocketMode. on. Qed.
Lemma t_reply : tameW getServerReplyW.
Proof. unfold getServerReplyW. pose proof t_raw_reply. on. Qed.
Lemma t_ptr cw cmd err : tameW cw -> tameW (sendCommandPtrW cw cmd err).
Proof. intros H. unfold sendCommandPtrW, sendRaw2W, sendCommandTLSW. on. Qed.
Lemma t_quit cw : tameW cw -> tameW (sendQuitW cw).
Proof. intros H. unfold sendQuitW. pose proof (fun a b => t_ptr cw a b H) as X. on. apply X. Qed.
Lemma t_cleanup_f n : tameW (cleanup_fW n).
Proof.
  induction n as [|n IH]; cbn [cleanup_fW]; [on|]. pose proof (t_quit _ IH). pose proof t_doclean.
  unfold close_socketW, release_winsock. on.
Qed.
Lemma t_cleanup : tameW cleanupW.
Proof. intros v. apply t_cleanup_f. Qed.
Lemma t_raw3 cmd err tm : tameW (sendRaw3W cmd err tm).
Proof. unfold sendRaw3W, sendRaw2W. pose proof t_cleanup. pose proof t_raw_reply. on. Qed.
Lemma t_feed cmd err tm : tameW (sendFeedbackW cmd err tm).
Proof. unfold sendFeedbackW, sendFeedbackTLSW. pose proof t_cleanup. pose proof t_reply. pose proof (t_raw3 cmd err tm). on. Qed.
Lemma t_feedptr cmd err tm : tameW (sendFeedbackPtrW cmd err tm).
Proof. unfold sendFeedbackPtrW. pose proof (t_feed cmd err tm). pose proof (t_raw3 cmd err tm). on. Qed.
Lemma t_cptr cmd err : tameW (sendCommandPtrW cleanupW cmd err).
Proof. apply t_ptr, t_cleanup. Qed.
Ltac ow := repeat match goal with
  | |- tameW (sendFeedbackPtrW _ _ _) => apply t_feedptr
  | |- tameW (sendFeedbackW _ _ _) => apply t_feed
  | |- tameW (sendRaw3W _ _ _) => apply t_raw3
  | |- tameW (sendCommandPtrW cleanupW _ _) => apply t_cptr
  | |- tameW (sendQuitW cleanupW) => apply t_quit, t_cleanup
  | |- tameW cleanupW => apply t_cleanup
  | |- tameW getServerReplyW => apply t_reply
  | |- tameW (wret _) => apply tw_quiet; discriminate
  | |- tameW (wput _) => apply tw_quiet; discriminate
  | |- tameW (next _ _ _) => apply tw_next
  | |- tameW (base _) => apply tw_base; tb
  | |- tameW (wbind _ _) => apply tw_bind; [|intros ?]
  | |- tameW (match ?x with _ => _ end) => destruct x
  end.
Lemma t_ehlo_loop n tc : forall op, tameW (ehlo_loopW n tc op).
Proof. induction n as [|n IH]; intros op; cbn [ehlo_loopW]; ow. apply IH. Qed.
Lemma t_ehlo err tm : tameW (ehlo_withW err tm).
Proof. unfold ehlo_withW. ow. apply t_ehlo_loop. Qed.
Lemma t_secure : tameW getServerSecureIdentificationW.
Proof. unfold getServerSecureIdentificationW. ow. apply t_ehlo. Qed.
Lemma t_auth_if : tameW authenticate_if_neededW.
Proof. unfold authenticate_if_neededW, authenticateClientW, authPlainW, authLoginW, authXOauth2W. ow. Qed.
Lemma t_mail_from l : forall z, tameW (mail_from_loopW l z).
Proof. induction l as [|f l IH]; intros z; cbn [mail_from_loopW]; ow. apply IH. Qed.
Lemma t_add_rcpt l : forall z, tameW (addMailRecipientsW l z).
Proof. induction l as [|f l IH]; intros z; cbn [addMailRecipientsW]; ow; apply IH. Qed.
Lemma t_rcpts l : tameW (recipients_loopW l).
Proof. induction l as [|a l IH]; cbn [recipients_loopW]; [ow|]. destruct a; [apply IH|]. apply tw_bind; [apply t_add_rcpt|]. intros. destruct (negb _); [ow|apply IH]. Qed.
Lemma t_chunks l err : tameW (send_chunksW l err).
Proof. induction l as [|x l IH]; cbn [send_chunksW]; ow. apply IH. Qed.
Lemma t_transaction m : tameW (mail_transactionW m).
Proof.
  unfold mail_transactionW. apply tw_bind; [unfold setMailRecipientsW; apply tw_bind; [apply t_mail_from|]; intros; destruct (negb _); [ow|apply t_rcpts]|]. intros r.
  destruct (negb _); [ow|]. apply tw_bind; [unfold setMailHeadersW, addMailHeaderW, address_headerW, addMailHeaderW; ow|].
  intros h. destruct (negb _); [ow|]. apply tw_bind; [unfold setMailBodyW; ow; apply t_chunks|]. intros b. ow.
Qed.
Lemma t_startTLS : tameW startTLSNegotiationW.
Proof. unfold startTLSNegotiationW. ow. Qed.
Lemma t_establish : tameW establishW.
Proof.
  pose proof t_init. pose proof t_startTLS. pose proof t_secure. pose proof t_auth_if.
  pose proof (t_ehlo SOCKET_INIT_CLIENT_SEND_EHLO_ERROR SOCKET_INIT_CLIENT_SEND_EHLO_TIMEOUT) as X. fold sendServerIdentificationW in X.
  pose proof (fun a b c => t_raw3 a b c) as R.
  unfold establishW, establishPlainW, establishOppW, establishForcedW, upgradeToSecureConnectionW. on; apply R.
Qed.
Lemma t_sendMail m : tameW (sendMailW m).
Proof. unfold sendMailW. pose proof t_establish. pose proof (t_transaction m). on. Qed.
