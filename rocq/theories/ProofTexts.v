(** Error texts and the log have no influence on what a client does. *)

From Coq Require Import Ascii String List NArith ZArith Bool Lia.
From Verif Require Import Base Lib ModelUtil ModelBase64 ModelAddress ModelAttachment ModelMessage ModelReply ModelErrors ModelState ModelClient ModelWorld
  SpecTexts.
Import ListNotations.
Open Scope Z_scope.

Definition empty_alike (l1 l2 : option logbuf) : Prop := l1 = None <-> l2 = None.
(** Logging has failed. *)
Definition bad {A} (o : outcome A) : Prop := o = Throw \/ o = Undef (UB_BufferOverflow BufLog).
Ltac flds := cbn [set_log c_kind c_conn c_server c_port c_batch c_resp c_timeout c_errno c_auth c_cred c_sock c_keep c_rawptr c_bio c_ctx c_selfsigned e_recv e_send e_bread e_bputs e_sock e_host e_fcntl e_conn e_select e_sopt e_tls e_fs e_strerror e_x509str e_next texts].

Section Texts.
Variables f g : Z -> str.

Definition like (s1 s2 : st) : Prop :=
  (exists l z, s_c s2 = set_log l z (s_c s1) /\ empty_alike l (c_log (s_c s1))) /\ s_e s2 = texts f g (s_e s1) /\ s_t s1 = s_t s2.
Definition two {A} (m1 m2 : M A) : Prop := forall s1 s2, like s1 s2 ->
  bad (fst (m1 s1)) \/ bad (fst (m2 s2)) \/ fst (m1 s1) = fst (m2 s2) /\ like (snd (m1 s1)) (snd (m2 s2)).
Definition ob {A} (m : M A) : Prop := two m m.

Lemma ob_bind : forall {A C} (m1 m2 : M A) (k1 k2 : A -> M C), two m1 m2 -> (forall a, two (k1 a) (k2 a)) -> two (bind m1 k1) (bind m2 k2).
Proof.
  intros A C m1 m2 k1 k2 H K s1 s2 L. specialize (H s1 s2 L). unfold bind. destruct (m1 s1) as [o1 q1], (m2 s2) as [o2 q2]. cbn [fst snd] in *.
  destruct H as [[->| ->]|[[->| ->]|[-> L']]]; [left; left; reflexivity|left; right; reflexivity|right; left; left; reflexivity|right; left; right; reflexivity|].
  destruct o2 as [a| | | | |]; cbn [fst snd]; try (right; right; split; [reflexivity|exact L']). exact (K a q1 q2 L').
Qed.
Lemma ob_getc : forall {A} (k : client -> M A), (forall c l z, empty_alike l (c_log c) -> two (k c) (k (set_log l z c))) -> two (bind getc k) (bind getc k).
Proof. intros A k H s1 s2 L. pose proof L as ((l & z & E & X) & _). unfold bind, getc. rewrite E. exact (H _ l z X s1 s2 L). Qed.
Lemma ob_gete : forall {A} (k : env -> M A), (forall e, two (k e) (k (texts f g e))) -> two (bind gete k) (bind gete k).
Proof. intros A k H s1 s2 L. pose proof L as (_ & E & _). unfold bind, gete. rewrite E. exact (H _ s1 s2 L). Qed.
Lemma ob_same : forall {A} (o : outcome A), two (fun s => (o, s)) (fun s => (o, s)).
Proof. intros A o s1 s2 L. right. right. split; [reflexivity|exact L]. Qed.
Lemma ob_ret : forall {A} (a : A), two (ret a) (ret a). Proof. intros. apply ob_same. Qed.
Lemma ob_lift : forall {A} (a : outcome A), two (lift a) (lift a). Proof. intros. apply ob_same. Qed.
Lemma ob_ub : forall {A} u, two (@fail_ub A u) (@fail_ub A u). Proof. intros. apply ob_same. Qed.
Lemma ob_blocked : forall {A}, two (@blocked A) (@blocked A). Proof. intros. apply ob_same. Qed.
Lemma ob_diverge : forall {A}, two (@diverge A) (@diverge A). Proof. intros. apply ob_same. Qed.
Lemma ob_killed : forall {A}, two (@killed A) (@killed A). Proof. intros. apply ob_same. Qed.
Lemma ob_upde : forall h, (forall e, h (texts f g e) = texts f g (h e)) -> two (upde h) (upde h).
Proof. intros h H s1 s2 (A & E & T). right. right. split; [reflexivity|]. split; [exact A|split; [cbn; rewrite E; apply H|exact T]]. Qed.
Lemma ob_emits : forall l, two (emits l) (emits l).
Proof. intros l s1 s2 (A & E & T). right. right. split; [reflexivity|]. split; [exact A|split; [exact E|cbn; rewrite T; reflexivity]]. Qed.
Lemma ob_emit : forall l, two (emit l) (emit l). Proof. intros l. exact (ob_emits [l]). Qed.
Lemma ob_updc : forall h, (forall c l z, empty_alike l (c_log c) -> exists l' z', h (set_log l z c) = set_log l' z' (h c) /\ empty_alike l' (c_log (h c))) -> two (updc h) (updc h).
Proof. intros h H s1 s2 ((l & z & A & X) & E & T). right. right. split; [reflexivity|]. split; [cbn [updc snd s_c]; rewrite A; apply H, X|split; [exact E|exact T]]. Qed.
Lemma two_addLog : forall i p i' p', two (addLog i p) (addLog i' p').
Proof.
  intros i p i' p' s1 s2 L. pose proof L as ((l & z & E & X) & Ee & Et). unfold addLog, bind, getc. rewrite E. destruct (s_c s1) as [k1 k2 k3 k4 k5 k6 k7 k8 k9 k10 k11 k12 k13 k14 k15 k16 k17 k18] eqn:Ec. cbn [set_log c_log c_logsize] in *.
  destruct l as [l|], k6 as [l1|].
  - match goal with |- bad (fst ((if ?b then _ else _) _)) \/ _ => destruct b end; [left; left; reflexivity|].
    match goal with |- bad (fst ((if ?b then _ else _) _)) \/ _ => destruct b end; [|left; right; reflexivity].
    match goal with |- _ \/ bad (fst ((if ?b then _ else _) _)) \/ _ => destruct b end; [right; left; left; reflexivity|].
    match goal with |- _ \/ bad (fst ((if ?b then _ else _) _)) \/ _ => destruct b end; [|right; left; right; reflexivity].
    right. right. split; [reflexivity|]. unfold updc. cbn [snd]. split; [|split; [exact Ee|exact Et]]. cbn [s_c]. rewrite E, Ec. eexists. eexists. cbv [set_conn set_server set_port set_batch set_log set_resp set_timeout set_errno set_auth set_cred set_sock set_keep set_bio set_ctx set_selfsigned c_kind c_conn c_server c_port c_batch c_log c_logsize c_resp c_timeout c_errno c_auth c_cred c_sock c_keep c_rawptr c_bio c_ctx c_selfsigned]. split; [reflexivity|]. split; discriminate.
  - exfalso. destruct X as [_ X]. discriminate (X eq_refl).
  - exfalso. destruct X as [X _]. discriminate (X eq_refl).
  - right. right. split; [reflexivity|exact L].
Qed.
Ltac setter := apply ob_updc; let X := fresh "X" in intros [] ? ? X; eexists; eexists; split; [cbv [set_conn set_server set_port set_batch set_log set_resp set_timeout set_errno set_auth set_cred set_sock set_keep set_bio set_ctx set_selfsigned c_kind c_conn c_server c_port c_batch c_log c_logsize c_resp c_timeout c_errno c_auth c_cred c_sock c_keep c_rawptr c_bio c_ctx c_selfsigned]; reflexivity|first [exact X|split; discriminate]].
Ltac sb := repeat (lazymatch goal with
  | |- ob _ => unfold ob
  | |- two (let _ := _ in _) _ => cbv zeta
  | |- two (bind getc _) (bind getc _) => apply ob_getc; intros ? ? ? ?; flds
  | |- two (bind gete _) (bind gete _) => apply ob_gete; intros ?; flds
  | |- two (bind _ _) (bind _ _) => apply ob_bind; [|intros ?]
  | |- two (ret _) (ret _) => apply ob_ret
  | |- two (lift _) (lift _) => apply ob_lift
  | |- two (fail_ub _) (fail_ub _) => apply ob_ub
  | |- two blocked blocked => apply ob_blocked
  | |- two diverge diverge => apply ob_diverge
  | |- two killed killed => apply ob_killed
  | |- two (upde _) (upde _) => apply ob_upde; intros []; reflexivity
  | |- two (emit _) (emit _) => apply ob_emit
  | |- two (emits _) (emits _) => apply ob_emits
  | |- two (updc _) (updc _) => setter
  | |- two (addLog _ _) (addLog _ _) => apply two_addLog
  | |- two (logc _) (logc _) => apply two_addLog
  | |- two (logs _) (logs _) => apply two_addLog
  | |- two (if ?b then _ else _) (if ?b then _ else _) => destruct b
  | |- two (match ?x with _ => _ end) (match ?x with _ => _ end) => destruct x
  end).
Lemma ob_errno : forall n, ob (setLastSocketErrNo n). Proof. intros n. unfold setLastSocketErrNo. sb. Qed.
Lemma ob_log_errno : forall n, ob (log_errno n). Proof. intros n. unfold log_errno. sb; apply ob_errno. Qed.
Lemma ob_resp : forall d, ob (setLastServerResponse d). Proof. intros n. unfold setLastServerResponse. sb. Qed.
Lemma ob_fcntl : forall m, ob (sys_fcntl m). Proof. intros m. unfold sys_fcntl. sb. Qed.
Lemma ob_nonblocking : ob setSocketToNonBlocking. Proof. unfold setSocketToNonBlocking. sb; first [apply ob_fcntl|apply ob_log_errno]. Qed.
Lemma ob_blocking : ob setSocketToBlocking. Proof. unfold setSocketToBlocking. sb; first [apply ob_fcntl|apply ob_log_errno]. Qed.
Lemma ob_init : ob initializeSession.
Proof.
  unfold initializeSession, initializeSessionPOSIX, sys_gethostbyname, sys_connect, wait_connect. sb; lazymatch goal with
  | |- two (log_errno _) _ => apply ob_log_errno
  | |- two setSocketToNonBlocking _ => apply ob_nonblocking
  | |- two setSocketToBlocking _ => apply ob_blocking
  end.
Qed.
Lemma ob_greetings : ob checkServerGreetings. Proof. unfold checkServerGreetings, greeting_result. sb. Qed.
Lemma ob_wait_bio : ob wait_bio. Proof. unfold wait_bio, wait_null_bio. sb. Qed.
Lemma ob_greetings_tls : ob checkServerGreetingsTLS. Proof. unfold checkServerGreetingsTLS, greeting_result. sb; apply ob_wait_bio. Qed.
Lemma ob_raw_reply : ob getRawCommandReply. Proof. unfold getRawCommandReply. sb; first [apply ob_nonblocking|apply ob_blocking|apply ob_resp]. Qed.
Lemma ob_reply : ob getServerReply. Proof. unfold getServerReply, getServerReplyTLS. sb; first [apply ob_raw_reply|apply ob_wait_bio|apply ob_resp]. Qed.
Lemma ob_cmd_with : forall cl d err, ob cl -> ob (sendCommandPtr_with cl d err).
Proof. intros cl d err H. unfold sendCommandPtr_with, sendRaw2_with, sendCommandTLS_with, sys_send, sys_puts. sb; first [apply ob_errno|exact H]. Qed.
Lemma ob_cleanup_f : forall n, ob (cleanup_f n).
Proof. induction n as [|n IH]; cbn [cleanup_f]; [apply ob_diverge|]. unfold sendQuit_with, close_socket, free_tls. sb; apply ob_cmd_with, IH. Qed.
Lemma ob_cleanup : ob cleanup. Proof. intros s1 s2 L. unfold cleanup. pose proof L as (_ & E & _). rewrite E. exact (ob_cleanup_f _ s1 s2 L). Qed.
Lemma ob_cmd : forall d err, ob (sendCommandPtr d err). Proof. intros. apply ob_cmd_with, ob_cleanup. Qed.
Lemma ob_raw3 : forall d err tmo, ob (sendRaw3 d err tmo).
Proof. intros. unfold sendRaw3, sendRaw2, sendRaw2_with, sys_send. sb; first [apply ob_errno|apply ob_cleanup|apply ob_raw_reply]. Qed.
Lemma ob_fb1 : forall d err tmo, ob (sendFeedback d err tmo).
Proof. intros. unfold sendFeedback, sendFeedbackTLS, sys_puts. sb; first [apply ob_errno|apply ob_cleanup|apply ob_reply|apply ob_raw3]. Qed.
Lemma ob_fb : forall d err tmo, ob (sendFeedbackPtr d err tmo). Proof. intros. unfold sendFeedbackPtr. sb; first [apply ob_fb1|apply ob_raw3]. Qed.
Lemma ob_ehlo_loop : forall n t o, ob (ehlo_loop n t o).
Proof. induction n as [|n IH]; intros t o; cbn [ehlo_loop]; sb; first [apply ob_reply|apply IH]. Qed.
Lemma ob_ehlo : forall err tmo, ob (ehlo_with err tmo). Proof. intros. unfold ehlo_with. sb; first [apply ob_fb1|apply ob_ehlo_loop]. Qed.
Lemma ob_auth : ob authenticate_if_needed.
Proof. unfold authenticate_if_needed, authenticateClient, authPlain, authLogin, authXOauth2. sb; apply ob_fb. Qed.
Lemma ob_starttls : ob startTLSNegotiation. Proof. unfold startTLSNegotiation, fresh_id. sb; first [apply ob_errno|apply ob_cleanup]. Qed.
Lemma ob_from : forall l r, ob (mail_from_loop l r). Proof. induction l as [|x l IH]; intros r; cbn [mail_from_loop]; sb; first [apply ob_fb|apply IH]. Qed.
Lemma ob_add : forall l r, ob (addMailRecipients l r). Proof. induction l as [|x l IH]; intros r; cbn [addMailRecipients]; sb; first [apply ob_fb|apply IH]. Qed.
Lemma ob_rcpts : forall l, ob (recipients_loop l).
Proof. induction l as [|[k|x] l IH]; cbn [recipients_loop]; [apply ob_ret|exact IH|]. sb; first [apply ob_add|apply IH]. Qed.
Lemma ob_chunks : forall l err, ob (send_chunks l err). Proof. induction l as [|x l IH]; intros err; cbn [send_chunks]; sb; first [apply ob_cmd|apply IH]. Qed.
Lemma ob_transaction : forall m, ob (mail_transaction m).
Proof.
  intros m. unfold mail_transaction, setMailRecipients, setMailHeaders, address_header, addMailHeader, setMailBody, sendQuitCommand, sendQuit_with. change (sendCommandPtr_with cleanup) with sendCommandPtr.
  sb; lazymatch goal with
  | |- two (sendFeedbackPtr _ _ _) _ => apply ob_fb
  | |- two (sendCommandPtr _ _) _ => apply ob_cmd
  | |- two (send_chunks _ _) _ => apply ob_chunks
  | |- two (mail_from_loop _ _) _ => apply ob_from
  | |- two (recipients_loop _) _ => apply ob_rcpts
  | |- two cleanup _ => apply ob_cleanup
  end.
Qed.
Lemma ob_establish : ob establish.
Proof.
  unfold establish, establishPlain, establishOpp, establishForced, sendServerIdentification, getServerSecureIdentification, upgradeToSecureConnection. sb; lazymatch goal with
  | |- two initializeSession _ => apply ob_init
  | |- two checkServerGreetings _ => apply ob_greetings
  | |- two checkServerGreetingsTLS _ => apply ob_greetings_tls
  | |- two (ehlo_with _ _) _ => apply ob_ehlo
  | |- two authenticate_if_needed _ => apply ob_auth
  | |- two startTLSNegotiation _ => apply ob_starttls
  | |- two (sendRaw3 _ _ _) _ => apply ob_raw3
  end.
Qed.
Lemma ob_send : forall m, ob (sendMail m). Proof. intros m. unfold sendMail. sb; first [apply ob_establish|apply ob_transaction]. Qed.
Lemma ob_destroy : ob (cleanup;; ret 0). Proof. sb. apply ob_cleanup. Qed.
End Texts.
