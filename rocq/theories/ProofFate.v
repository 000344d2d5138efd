(** What a mail says has no influence on what becomes of it. *)

From Coq Require Import Ascii String List NArith ZArith Bool Lia.
From Verif Require Import Base Lib ModelUtil ModelBase64 ModelAddress ModelAttachment ModelMessage ModelReply ModelErrors ModelState ModelClient ModelWorld
  SpecFate.
Import ListNotations.
Open Scope Z_scope.

Definition empty_alike (l1 l2 : option logbuf) : Prop := l1 = None <-> l2 = None.
(** Logging has failed. *)
Definition bad {A} (o : outcome A) : Prop := o = Throw \/ o = Undef (UB_BufferOverflow BufLog).
Ltac flds := cbn [set_log c_kind c_conn c_server c_port c_batch c_resp c_timeout c_errno c_auth c_cred c_sock c_keep c_rawptr c_bio c_ctx c_selfsigned].

Definition like (s1 s2 : st) : Prop :=
  (exists l z, s_c s2 = set_log l z (s_c s1) /\ empty_alike l (c_log (s_c s1))) /\ s_e s1 = s_e s2 /\ filter not_written (s_t s1) = filter not_written (s_t s2) /\ lossless (s_e s1).
Definition two {A} (m1 m2 : M A) : Prop := forall s1 s2, like s1 s2 ->
  bad (fst (m1 s1)) \/ bad (fst (m2 s2)) \/ fst (m1 s1) = fst (m2 s2) /\ like (snd (m1 s1)) (snd (m2 s2)).
Definition ob {A} (m : M A) : Prop := two m m.

Lemma ob_bind : forall {A C} (m1 m2 : M A) (k1 k2 : A -> M C), two m1 m2 -> (forall a, two (k1 a) (k2 a)) -> two (bind m1 k1) (bind m2 k2).
Proof.
  intros A C m1 m2 k1 k2 H K s1 s2 L. specialize (H s1 s2 L). unfold bind. destruct (m1 s1) as [o1 q1], (m2 s2) as [o2 q2]. cbn [fst snd] in *.
  destruct H as [[->| ->]|[[->| ->]|[-> L']]]; [left; left; reflexivity|left; right; reflexivity|right; left; left; reflexivity|right; left; right; reflexivity|].
  destruct o2 as [a| | | | |]; cbn [fst snd]; try (right; right; split; [reflexivity|exact L']). exact (K a q1 q2 L').
Qed.
Lemma ob_getc : forall {A} (k1 k2 : client -> M A), (forall c l z, empty_alike l (c_log c) -> two (k1 c) (k2 (set_log l z c))) -> two (bind getc k1) (bind getc k2).
Proof. intros A k1 k2 H s1 s2 L. pose proof L as ((l & z & E & X) & _). unfold bind, getc. rewrite E. exact (H _ l z X s1 s2 L). Qed.
Lemma ob_gete : forall {A} (k1 k2 : env -> M A), (forall e, lossless e -> two (k1 e) (k2 e)) -> two (bind gete k1) (bind gete k2).
Proof. intros A k1 k2 H s1 s2 L. pose proof L as (_ & E & _ & N). unfold bind, gete. rewrite <- E. exact (H _ N s1 s2 L). Qed.
Lemma ob_same : forall {A} (o : outcome A), two (fun s => (o, s)) (fun s => (o, s)).
Proof. intros A o s1 s2 L. right. right. split; [reflexivity|exact L]. Qed.
Lemma ob_ret : forall {A} (a : A), two (ret a) (ret a). Proof. intros. apply ob_same. Qed.
Lemma ob_lift : forall {A} (a : outcome A), two (lift a) (lift a). Proof. intros. apply ob_same. Qed.
Lemma ob_ub : forall {A} u, two (@fail_ub A u) (@fail_ub A u). Proof. intros. apply ob_same. Qed.
Lemma ob_blocked : forall {A}, two (@blocked A) (@blocked A). Proof. intros. apply ob_same. Qed.
Lemma ob_diverge : forall {A}, two (@diverge A) (@diverge A). Proof. intros. apply ob_same. Qed.
Lemma ob_killed : forall {A}, two (@killed A) (@killed A). Proof. intros. apply ob_same. Qed.
Lemma ob_upde : forall h, (forall e, lossless e -> lossless (h e)) -> two (upde h) (upde h).
Proof. intros h H s1 s2 (A & E & T & N). right. right. split; [reflexivity|]. split; [exact A|split; [cbn; rewrite E; reflexivity|split; [exact T|apply H, N]]]. Qed.
Lemma two_emits : forall l1 l2, filter not_written l1 = filter not_written l2 -> two (emits l1) (emits l2).
Proof. intros l1 l2 H s1 s2 (A & E & T & N). right. right. split; [reflexivity|]. split; [exact A|split; [exact E|split; [cbn; rewrite !filter_app, H, T; reflexivity|exact N]]]. Qed.
Lemma ob_emits : forall l, two (emits l) (emits l). Proof. intros l. apply two_emits. reflexivity. Qed.
Lemma ob_emit : forall l, two (emit l) (emit l). Proof. intros l. exact (ob_emits [l]). Qed.
Lemma ob_updc : forall h, (forall c l z, empty_alike l (c_log c) -> exists l' z', h (set_log l z c) = set_log l' z' (h c) /\ empty_alike l' (c_log (h c))) -> two (updc h) (updc h).
Proof. intros h H s1 s2 ((l & z & A & X) & E). right. right. split; [reflexivity|]. split; [cbn [updc snd s_c]; rewrite A; apply H, X|exact E]. Qed.
Lemma two_addLog : forall i p i' p', two (addLog i p) (addLog i' p').
Proof.
  intros i p i' p' s1 s2 L. pose proof L as ((l & z & E & X) & Ee). unfold addLog, bind, getc. rewrite E. destruct (s_c s1) as [k1 k2 k3 k4 k5 k6 k7 k8 k9 k10 k11 k12 k13 k14 k15 k16 k17 k18] eqn:Ec. cbn [set_log c_log c_logsize] in *.
  destruct l as [l|], k6 as [l1|].
  - match goal with |- bad (fst ((if ?b then _ else _) _)) \/ _ => destruct b end; [left; left; reflexivity|].
    match goal with |- bad (fst ((if ?b then _ else _) _)) \/ _ => destruct b end; [|left; right; reflexivity].
    match goal with |- _ \/ bad (fst ((if ?b then _ else _) _)) \/ _ => destruct b end; [right; left; left; reflexivity|].
    match goal with |- _ \/ bad (fst ((if ?b then _ else _) _)) \/ _ => destruct b end; [|right; left; right; reflexivity].
    right. right. split; [reflexivity|]. unfold updc. cbn [snd]. split; [|exact Ee]. cbn [s_c]. rewrite E, Ec. eexists. eexists. cbv [set_conn set_server set_port set_batch set_log set_resp set_timeout set_errno set_auth set_cred set_sock set_keep set_bio set_ctx set_selfsigned c_kind c_conn c_server c_port c_batch c_log c_logsize c_resp c_timeout c_errno c_auth c_cred c_sock c_keep c_rawptr c_bio c_ctx c_selfsigned]. split; [reflexivity|]. split; discriminate.
  - exfalso. destruct X as [_ X]. discriminate (X eq_refl).
  - exfalso. destruct X as [X _]. discriminate (X eq_refl).
  - right. right. split; [reflexivity|exact L].
Qed.
Ltac setter := apply ob_updc; let X := fresh "X" in intros [] ? ? X; eexists; eexists; split; [cbv [set_conn set_server set_port set_batch set_log set_resp set_timeout set_errno set_auth set_cred set_sock set_keep set_bio set_ctx set_selfsigned c_kind c_conn c_server c_port c_batch c_log c_logsize c_resp c_timeout c_errno c_auth c_cred c_sock c_keep c_rawptr c_bio c_ctx c_selfsigned]; reflexivity|first [exact X|split; discriminate]].
Ltac sb := repeat (lazymatch goal with
  | |- ob _ => unfold ob
  | |- two (let _ := _ in _) _ => cbv zeta
  | |- two (bind getc _) (bind getc _) => apply ob_getc; intros ? ? ? ?; flds
  | |- two (bind gete _) (bind gete _) => apply ob_gete; intros ? ?
  | |- two (bind _ _) (bind _ _) => apply ob_bind; [|intros ?]
  | |- two (ret _) (ret _) => apply ob_ret
  | |- two (lift _) (lift _) => apply ob_lift
  | |- two (fail_ub _) (fail_ub _) => apply ob_ub
  | |- two blocked blocked => apply ob_blocked
  | |- two diverge diverge => apply ob_diverge
  | |- two killed killed => apply ob_killed
  | |- two (upde _) (upde _) => apply ob_upde; let X := fresh "X" in intros [] X; exact X
  | |- two (emit _) (emit _) => apply ob_emit
  | |- two (emits _) (emits _) => apply ob_emits
  | |- two (updc _) (updc _) => setter
  | |- two (addLog _ _) (addLog _ _) => apply two_addLog
  | |- two (logc _) (logc _) => apply two_addLog
  | |- two (logs _) (logs _) => apply two_addLog
  | |- two (if ?b then _ else _) (if ?b then _ else _) => destruct b
  | |- two (match ?x with _ => _ end) (match ?x with _ => _ end) => destruct x
  end).
Lemma two_send : forall d1 d2, two (sys_send d1) (sys_send d2).
Proof.
  intros d1 d2. unfold sys_send. apply ob_getc. intros c l z _. flds. apply ob_gete. intros e [N _]. rewrite N. apply ob_bind; [apply two_emits; reflexivity|intros ?; apply ob_ret].
Qed.
Lemma two_puts : forall b d1 d2, two (sys_puts b d1) (sys_puts b d2).
Proof. intros b d1 d2. unfold sys_puts. apply ob_gete. intros e [_ N]. rewrite N. apply ob_bind; [apply two_emits; reflexivity|intros ?; apply ob_ret]. Qed.
Lemma ob_errno : forall n, ob (setLastSocketErrNo n). Proof. intros n. unfold setLastSocketErrNo. sb. Qed.
Lemma ob_log_errno : forall n, ob (log_errno n). Proof. intros n. unfold log_errno. sb; apply ob_errno. Qed.
Lemma ob_resp : forall d, ob (setLastServerResponse d). Proof. intros n. unfold setLastServerResponse. sb. Qed.
Lemma ob_fcntl : forall m, ob (sys_fcntl m). Proof. intros m. unfold sys_fcntl. sb. Qed.
Lemma ob_nonblocking : ob setSocketToNonBlocking. Proof. unfold setSocketToNonBlocking. sb; first [apply ob_fcntl|apply ob_log_errno]. Qed.
Lemma ob_blocking : ob setSocketToBlocking. Proof. unfold setSocketToBlocking. sb; first [apply ob_fcntl|apply ob_log_errno]. Qed.
Lemma ob_init : ob initializeSession.
Proof.
  unfold initializeSession, initializeSessionPOSIX, sys_gethostbyname, sys_connect, wait_connect. sb; lazymatch goal with
  | |- two (log_errno _) _ => apply ob_log_errno
  | |- two setSocketToNonBlocking _ => apply ob_nonblocking
  | |- two setSocketToBlocking _ => apply ob_blocking
  end.
Qed.
Lemma ob_greetings : ob checkServerGreetings. Proof. unfold checkServerGreetings, greeting_result. sb. Qed.
Lemma ob_wait_bio : ob wait_bio. Proof. unfold wait_bio, wait_null_bio. sb. Qed.
Lemma ob_greetings_tls : ob checkServerGreetingsTLS. Proof. unfold checkServerGreetingsTLS, greeting_result. sb; apply ob_wait_bio. Qed.
Lemma ob_raw_reply : ob getRawCommandReply. Proof. unfold getRawCommandReply. sb; first [apply ob_nonblocking|apply ob_blocking|apply ob_resp]. Qed.
Lemma ob_reply : ob getServerReply. Proof. unfold getServerReply, getServerReplyTLS. sb; first [apply ob_raw_reply|apply ob_wait_bio|apply ob_resp]. Qed.
Lemma two_cmd_with : forall cl d1 d2 err, ob cl -> two (sendCommandPtr_with cl d1 err) (sendCommandPtr_with cl d2 err).
Proof. intros cl d1 d2 err H. unfold sendCommandPtr_with, sendRaw2_with, sendCommandTLS_with. sb; first [apply two_send|apply two_puts|apply ob_errno|exact H]. Qed.
Lemma ob_cleanup_f : forall n, ob (cleanup_f n).
Proof. induction n as [|n IH]; cbn [cleanup_f]; [apply ob_diverge|]. unfold sendQuit_with, close_socket, free_tls. sb; apply two_cmd_with, IH. Qed.
Lemma ob_cleanup : ob cleanup. Proof. intros s1 s2 L. unfold cleanup. pose proof L as (_ & E & _). rewrite <- E. exact (ob_cleanup_f _ s1 s2 L). Qed.
Lemma two_cmd : forall d1 d2 err, two (sendCommandPtr d1 err) (sendCommandPtr d2 err). Proof. intros. apply two_cmd_with, ob_cleanup. Qed.
Lemma two_raw3 : forall d1 d2 err tmo, two (sendRaw3 d1 err tmo) (sendRaw3 d2 err tmo).
Proof. intros. unfold sendRaw3, sendRaw2, sendRaw2_with. sb; first [apply two_send|apply ob_errno|apply ob_cleanup|apply ob_raw_reply]. Qed.
Lemma two_fb1 : forall d1 d2 err tmo, two (sendFeedback d1 err tmo) (sendFeedback d2 err tmo).
Proof. intros. unfold sendFeedback, sendFeedbackTLS. sb; first [apply two_puts|apply ob_errno|apply ob_cleanup|apply ob_reply|apply two_raw3]. Qed.
Lemma two_fb : forall d1 d2 err tmo, two (sendFeedbackPtr d1 err tmo) (sendFeedbackPtr d2 err tmo). Proof. intros. unfold sendFeedbackPtr. sb; first [apply two_fb1|apply two_raw3]. Qed.
Lemma ob_ehlo_loop : forall n t o, ob (ehlo_loop n t o).
Proof. induction n as [|n IH]; intros t o; cbn [ehlo_loop]; sb; first [apply ob_reply|apply IH]. Qed.
Lemma ob_ehlo : forall err tmo, ob (ehlo_with err tmo). Proof. intros. unfold ehlo_with. sb; first [apply two_fb1|apply ob_ehlo_loop]. Qed.
Lemma ob_auth : ob authenticate_if_needed.
Proof. unfold authenticate_if_needed, authenticateClient, authPlain, authLogin, authXOauth2. sb; apply two_fb. Qed.
Lemma ob_starttls : ob startTLSNegotiation. Proof. unfold startTLSNegotiation, fresh_id. sb; first [apply ob_errno|apply ob_cleanup]. Qed.
Lemma two_from : forall l1 l2 r, length l1 = length l2 -> two (mail_from_loop l1 r) (mail_from_loop l2 r).
Proof. induction l1 as [|x l1 IH]; intros [|y l2] r H; try discriminate H; cbn [mail_from_loop]; [apply ob_ret|]. injection H as H. sb; first [apply two_fb|apply IH, H]. Qed.
Lemma two_add : forall l1 l2 r, length l1 = length l2 -> two (addMailRecipients l1 r) (addMailRecipients l2 r).
Proof. induction l1 as [|x l1 IH]; intros [|y l2] r H; try discriminate H; cbn [addMailRecipients]; [apply ob_ret|]. injection H as H. sb; first [apply two_fb|apply IH, H]. Qed.
Lemma two_rcpts : forall l1 l2, Forall2 same_count l1 l2 -> two (recipients_loop l1) (recipients_loop l2).
Proof. induction 1 as [|x y l1 l2 H F IH]; cbn [recipients_loop]; [apply ob_ret|]. destruct x, y; try contradiction; [exact IH|]. sb; first [apply two_add, H|exact IH]. Qed.
Lemma two_address : forall fd x y, same_count x y -> two (address_header fd x) (address_header fd y).
Proof.
  intros fd [n|l1] [k|l2] H; try contradiction; cbn [same_count] in H; unfold address_header; [subst k; destruct n; [apply ob_ret|apply ob_ub]|].
  destruct l1, l2; try discriminate H; [apply ob_ret|]. unfold addMailHeader. sb; apply two_cmd.
Qed.
(** There is something to write to. *)
Definition writable (c : client) : Prop := c_rawptr c = true \/ c_kind c = KPlain \/ c_bio c <> None.
Lemma cmd_written : forall d err s, lossless (s_e s) -> writable (s_c s) -> exists t, filter not_written t = [] /\ sendCommandPtr d err s = (Done 0, mkSt (s_c s) (s_e s) (s_t s ++ t)).
Proof.
  intros d err [c e t] [N1 N2] H. cbn [s_c s_e s_t] in *.
  assert (R : exists t', filter not_written t' = [] /\ sendRaw2_with cleanup d err (mkSt c e t) = (Done 0, mkSt c e (t ++ t'))).
  { unfold sendRaw2_with, sys_send, bind, getc, gete, emit, emits, ret. cbn [s_c s_e s_t]. rewrite N1. eexists. split; [|reflexivity]. reflexivity. }
  unfold sendCommandPtr, sendCommandPtr_with. unfold bind at 1, getc. cbn [s_c].
  destruct (c_rawptr c) eqn:K0; [exact R|]. destruct (c_kind c) eqn:K; [exact R| |]; (destruct H as [H|[H|H]]; [congruence|congruence|]);
    unfold sendCommandTLS_with, sys_puts, bind, getc, gete, emit, emits, ret; cbn [s_c s_e s_t]; (destruct (c_bio c) as [b|]; [|contradiction]); cbn [s_e]; rewrite N2; eexists; (split; [|reflexivity]); reflexivity.
Qed.
Lemma cmd_unwritten : forall d err s, err <> 0 -> fst (sendCommandPtr d err s) = Done 0 -> writable (s_c s).
Proof.
  intros d err s Ne H. unfold writable. destruct (c_rawptr (s_c s)) eqn:R; [auto|]. destruct (c_kind (s_c s)) eqn:K; [auto| |]; (destruct (c_bio (s_c s)) as [b|] eqn:Eb; [right; right; discriminate|]); exfalso;
    unfold sendCommandPtr, sendCommandPtr_with, sendCommandTLS_with, bind, getc in H; rewrite R, K in H; rewrite Eb in H; unfold setLastSocketErrNo, updc in H;
    match type of H with context [cleanup ?x] => destruct (cleanup x) as [[] ?] end; cbn in H; congruence.
Qed.
Lemma chunks_written : forall l err s, lossless (s_e s) -> writable (s_c s) -> exists t, filter not_written t = [] /\ send_chunks l err s = (Done 0, mkSt (s_c s) (s_e s) (s_t s ++ t)).
Proof.
  induction l as [|x l IH]; intros err s N H; cbn [send_chunks]; [exists []; split; [reflexivity|rewrite app_nil_r; destruct s; reflexivity]|].
  destruct (cmd_written x err s N H) as (t & Ft & E). unfold bind. rewrite E. cbn [Z.eqb negb].
  destruct (IH err (mkSt (s_c s) (s_e s) (s_t s ++ t)) N H) as (t' & Ft' & E'). exists (t ++ t'). rewrite E'. cbn [s_c s_e s_t]. rewrite filter_app, Ft, Ft', app_assoc. split; reflexivity.
Qed.
Lemma like_writable : forall s1 s2, like s1 s2 -> writable (s_c s1) -> writable (s_c s2).
Proof. intros s1 s2 ((l & z & E & _) & _) H. rewrite E. destruct (s_c s1). exact H. Qed.
Lemma addLog_writable : forall i p s, writable (s_c s) -> writable (s_c (snd (addLog i p s))).
Proof.
  intros i p s H. unfold addLog, bind, getc. destruct (c_log (s_c s)); [|exact H].
  match goal with |- context [if ?b then lift Throw else _] => destruct b end; [exact H|].
  match goal with |- context [if ?b then updc _ else _] => destruct b end; [|exact H]. cbn. destruct (s_c s). exact H.
Qed.
Definition rest : M Z :=
  logc END_OF_DATA;;
  d <- sendFeedbackPtr END_OF_DATA CLIENT_SENDMAIL_END_DATA_ERROR CLIENT_SENDMAIL_END_DATA_TIMEOUT;;
  if negb (d =? STATUS_CODE_REQUESTED_MAIL_ACTION_OK_OR_COMPLETED) then ret d else
  c <- getc;;
  if c_batch c then ret 0
  else
    q <- sendQuitCommand;;
    if negb (q =? 0) then ret q else ret 0.
Definition inner (m : message) : M Z :=
  e <- gete;;
  body <- lift (body_real (e_fs e) m);;
  r <- send_chunks (body_chunks body)
         (if (512 <? length body)%nat then CLIENT_SENDMAIL_BODYPART_ERROR
          else CLIENT_SENDMAIL_BODY_ERROR);;
  if negb (r =? 0) then ret r else rest.
Lemma ob_rest : ob rest.
Proof. unfold rest, sendQuitCommand, sendQuit_with. change (sendCommandPtr_with cleanup) with sendCommandPtr. sb; first [apply two_fb|apply two_cmd]. Qed.
Definition ends {A} (m1 m2 : M A) (s1 s2 : st) : Prop := bad (fst (m1 s1)) \/ bad (fst (m2 s2)) \/ fst (m1 s1) = fst (m2 s2) /\ like (snd (m1 s1)) (snd (m2 s2)).
Lemma inner_done : forall m q b, lossless (s_e q) -> writable (s_c q) -> body_real (e_fs (s_e q)) m = Done b -> exists t, filter not_written t = [] /\ inner m q = rest (mkSt (s_c q) (s_e q) (s_t q ++ t)).
Proof.
  intros m q b N H E. destruct (chunks_written (body_chunks b) (if (512 <? length b)%nat then CLIENT_SENDMAIL_BODYPART_ERROR else CLIENT_SENDMAIL_BODY_ERROR) q N H) as (t & Ft & Ec).
  exists t. split; [exact Ft|]. unfold inner. unfold bind at 1, gete. unfold bind at 1, lift. rewrite E. unfold bind at 1. rewrite Ec. reflexivity.
Qed.
Lemma inner_null : forall m n q, m_atts m = ANull (S n) -> inner m q = (Undef (UB_NullDeref PArray), q).
Proof. intros m n q E. unfold inner, bind, gete, lift, body_real. rewrite E. reflexivity. Qed.
(** Results that differ at most in the code for a failing write of the body,
    which depends on the length of the body. *)
Definition body_code (z : Z) : Prop := z = CLIENT_SENDMAIL_BODY_ERROR \/ z = CLIENT_SENDMAIL_BODYPART_ERROR.
Definition near (o1 o2 : outcome Z) : Prop := o1 = o2 \/ exists a b, o1 = Done a /\ o2 = Done b /\ body_code a /\ body_code b.
Definition nears (m1 m2 : M Z) (s1 s2 : st) : Prop := bad (fst (m1 s1)) \/ bad (fst (m2 s2)) \/ near (fst (m1 s1)) (fst (m2 s2)) /\ like (snd (m1 s1)) (snd (m2 s2)).
Lemma ends_nears : forall m1 m2 s1 s2, ends m1 m2 s1 s2 -> nears m1 m2 s1 s2.
Proof. intros m1 m2 s1 s2 [H|[H|[E L]]]; [left; exact H|right; left; exact H|right; right; split; [left; exact E|exact L]]. Qed.
Definition no_bio : M unit := setLastSocketErrNo ERR_NULL_BIO;; cleanup.
Lemma ob_no_bio : ob no_bio. Proof. unfold no_bio. sb; first [apply ob_errno|apply ob_cleanup]. Qed.
Lemma writable_dec : forall c, writable c \/ c_rawptr c = false /\ c_kind c <> KPlain /\ c_bio c = None.
Proof.
  intros c. unfold writable. destruct (c_rawptr c); [auto|]. destruct (c_bio c); [left; right; right; discriminate|]. destruct (c_kind c); [auto|right|right]; repeat split; discriminate.
Qed.
Lemma body_first : forall b, b <> [] -> exists x r, body_chunks b = x :: r.
Proof. intros b N. unfold body_chunks. destruct b as [|y b]; [contradiction|]. cbn [length]. destruct (512 <? S (length b))%nat; [|eexists; eexists; reflexivity]. cbn [chunk_loop length]. change (0 <? S (length b))%nat with true. cbv iota zeta. eexists; eexists; reflexivity. Qed.
Lemma inner_unwritable : forall m q b, c_rawptr (s_c q) = false -> c_kind (s_c q) <> KPlain -> c_bio (s_c q) = None -> body_real (e_fs (s_e q)) m = Done b -> b <> [] ->
  exists err, body_code err /\ inner m q = (no_bio;; ret err) q.
Proof.
  intros m q b R K Eb E N. destruct (body_first b N) as (x & r & Ex).
  exists (if (512 <? length b)%nat then CLIENT_SENDMAIL_BODYPART_ERROR else CLIENT_SENDMAIL_BODY_ERROR). split; [destruct (512 <? length b)%nat; [right|left]; reflexivity|].
  unfold inner. unfold bind at 1, gete. unfold bind at 1, lift. rewrite E, Ex. set (err := if (512 <? length b)%nat then _ else _).
  assert (Z0 : (err =? 0) = false) by (unfold err; destruct (512 <? length b)%nat; reflexivity).
  assert (C : sendCommandPtr x err q = (no_bio;; ret err) q).
  { unfold sendCommandPtr, sendCommandPtr_with, sendCommandTLS_with, no_bio. unfold bind at 1, getc. rewrite R. destruct (c_kind (s_c q)); [contradiction| |]; unfold bind at 1, getc; rewrite Eb; unfold bind, setLastSocketErrNo, updc; match goal with |- context [cleanup ?z] => destruct (cleanup z) as [[] ?] end; reflexivity. }
  cbn [send_chunks]. unfold bind at 1. unfold bind at 1. rewrite C. unfold bind. destruct (no_bio q) as [[] q']; try reflexivity. cbn [ret]. rewrite Z0. cbn [negb]. unfold ret. rewrite Z0. reflexivity.
Qed.
Lemma text_some : forall m t, body_text_part m ++ t <> []. Proof. intros m t. unfold body_text_part. discriminate. Qed.
Lemma two_inner : forall m1 m2 s1 s2, same_shape m1 m2 -> like s1 s2 -> nears (inner m1) (inner m2) s1 s2.
Proof.
  intros m1 m2 s1 s2 (_ & _ & _ & Sa) L. pose proof L as (Lc & Le & Lt & Ln).
  assert (N2 : lossless (s_e s2)) by (rewrite <- Le; exact Ln).
  assert (K : (exists b1, body_real (e_fs (s_e s1)) m1 = Done b1 /\ b1 <> []) -> (exists b2, body_real (e_fs (s_e s2)) m2 = Done b2 /\ b2 <> []) -> nears (inner m1) (inner m2) s1 s2).
  { intros (b1 & E1 & B1) (b2 & E2 & B2). destruct (writable_dec (s_c s1)) as [H|(R & Kd & Eb)].
    - pose proof (like_writable s1 s2 L H) as H2. destruct (inner_done m1 s1 b1 Ln H E1) as (t1 & F1 & R1). destruct (inner_done m2 s2 b2 N2 H2 E2) as (t2 & F2 & R2). apply ends_nears. unfold ends. rewrite R1, R2. apply ob_rest.
      split; [exact Lc|]. split; [exact Le|]. cbn [s_t s_e]. rewrite !filter_app, F1, F2, Lt. split; [reflexivity|exact Ln].
    - assert (Q : c_rawptr (s_c s2) = false /\ c_kind (s_c s2) <> KPlain /\ c_bio (s_c s2) = None) by (destruct Lc as (l & z & E & _); rewrite E; destruct (s_c s1); repeat split; assumption).
      destruct Q as (R2 & Kd2 & Eb2). destruct (inner_unwritable m1 s1 b1 R Kd Eb E1 B1) as (err1 & C1 & I1). destruct (inner_unwritable m2 s2 b2 R2 Kd2 Eb2 E2 B2) as (err2 & C2 & I2).
      unfold nears. rewrite I1, I2. pose proof (ob_no_bio s1 s2 L) as O. unfold bind. destruct (no_bio s1) as [o1 q1], (no_bio s2) as [o2 q2]. cbn [fst snd] in O.
      destruct O as [[->| ->]|[[->| ->]|[-> L']]]; [left; left; reflexivity|left; right; reflexivity|right; left; left; reflexivity|right; left; right; reflexivity|].
      right. right. destruct o2; (split; [|exact L']); try (left; reflexivity). right. exists err1, err2. auto. }
  unfold body_real in K. destruct (m_atts m1) as [n|l1] eqn:A1, (m_atts m2) as [k|l2] eqn:A2; try contradiction; cbn [same_count] in Sa.
  - subst k. destruct n; [apply K; eexists; (split; [reflexivity|discriminate])|]. right. right. rewrite (inner_null m1 n s1 A1), (inner_null m2 n s2 A2). split; [left; reflexivity|exact L].
  - destruct l1, l2; try discriminate Sa; apply K; eexists; (split; [reflexivity|discriminate]).
Qed.
Lemma nears_bind : forall {A} (m1 m2 : M A) (k1 k2 : A -> M Z) s1 s2, ends m1 m2 s1 s2 -> (forall a t1 t2, like t1 t2 -> nears (k1 a) (k2 a) t1 t2) -> nears (bind m1 k1) (bind m2 k2) s1 s2.
Proof.
  intros A m1 m2 k1 k2 s1 s2 H K. unfold nears, ends, bind in *. destruct (m1 s1) as [o1 q1], (m2 s2) as [o2 q2]. cbn [fst snd] in *.
  destruct H as [[->| ->]|[[->| ->]|[-> L']]]; [left; left; reflexivity|left; right; reflexivity|right; left; left; reflexivity|right; left; right; reflexivity|].
  destruct o2 as [a| | | | |]; cbn [fst snd]; try (right; right; split; [left; reflexivity|exact L']). exact (K a q1 q2 L').
Qed.
Lemma two_body : forall m1 m2 s1 s2, same_shape m1 m2 -> like s1 s2 -> nears (setMailBody m1) (setMailBody m2) s1 s2.
Proof.
  intros m1 m2 s1 s2 S L. change (nears (logc (body_text_part m1);; inner m1) (logc (body_text_part m2);; inner m2) s1 s2).
  apply nears_bind; [apply two_addLog, L|]. intros a t1 t2 L'. apply two_inner; assumption.
Qed.
(** The headers. *)
Lemma two_headers : forall m1 m2, same_shape m1 m2 -> two (setMailHeaders m1) (setMailHeaders m2).
Proof.
  intros m1 m2 (S1 & S2 & _). unfold setMailHeaders, addMailHeader. sb; lazymatch goal with
  | |- two (sendFeedbackPtr _ _ _) _ => apply two_fb
  | |- two (sendCommandPtr _ _) _ => apply two_cmd
  | |- two (address_header _ (m_to _)) _ => apply two_address, S1
  | |- two (address_header _ (m_cc _)) _ => apply two_address, S2
  end.
Qed.

Lemma two_recipients : forall m1 m2, same_shape m1 m2 -> two (setMailRecipients m1) (setMailRecipients m2).
Proof.
  intros m1 m2 (S1 & S2 & S3 & _). unfold setMailRecipients. sb; [apply two_from; reflexivity|]. apply two_rcpts. constructor; [exact S1|constructor; [exact S2|constructor; [exact S3|constructor]]].
Qed.
Lemma near_same : forall (m : M Z) s1 s2, ob m -> like s1 s2 -> nears m m s1 s2. Proof. intros m s1 s2 O L. apply ends_nears, O, L. Qed.
Lemma two_transaction : forall m1 m2 s1 s2, same_shape m1 m2 -> like s1 s2 -> nears (mail_transaction m1) (mail_transaction m2) s1 s2.
Proof.
  intros m1 m2 s1 s2 S L. unfold mail_transaction. apply nears_bind; [apply two_recipients; [exact S|exact L]|]. intros r t1 t2 L1.
  destruct (negb (r =? 0)); [apply near_same; [apply ob_ret|exact L1]|]. apply nears_bind; [apply two_headers; [exact S|exact L1]|]. intros h u1 u2 L2.
  destruct (negb (h =? 0)); [apply near_same; [apply ob_ret|exact L2]|]. pose proof (two_body m1 m2 u1 u2 S L2) as Q. unfold nears in Q |- *.
  assert (Fin : ob (c <- getc;; (if c_batch c then ret tt else cleanup);; ret 0)) by (sb; apply ob_cleanup).
  set (fin := c <- getc;; (if c_batch c then ret tt else cleanup);; ret 0) in *.
  change (nears (b <- setMailBody m1;; if negb (b =? 0) then ret b else fin) (b <- setMailBody m2;; if negb (b =? 0) then ret b else fin) u1 u2).
  unfold nears, bind. destruct (setMailBody m1 u1) as [o1 q1], (setMailBody m2 u2) as [o2 q2]. cbn [fst snd] in Q.
  destruct Q as [[->| ->]|[[->| ->]|[[->|(x & y & -> & -> & Cx & Cy)] L']]]; [left; left; reflexivity|left; right; reflexivity|right; left; left; reflexivity|right; left; right; reflexivity| |].
  - destruct o2 as [z| | | | |]; try (right; right; split; [left; reflexivity|exact L']). destruct (negb (z =? 0)); [right; right; split; [left; reflexivity|exact L']|]. exact (near_same fin q1 q2 Fin L').
  - assert (X : negb (x =? 0) = true) by (destruct Cx as [->| ->]; reflexivity). assert (Y : negb (y =? 0) = true) by (destruct Cy as [->| ->]; reflexivity). rewrite X, Y.
    right. right. split; [right; exists x, y; auto|exact L'].
Qed.
Lemma ob_establish : ob establish.
Proof.
  unfold establish, establishPlain, establishOpp, establishForced, sendServerIdentification, getServerSecureIdentification, upgradeToSecureConnection. sb; lazymatch goal with
  | |- two initializeSession _ => apply ob_init
  | |- two checkServerGreetings _ => apply ob_greetings
  | |- two checkServerGreetingsTLS _ => apply ob_greetings_tls
  | |- two (ehlo_with _ _) _ => apply ob_ehlo
  | |- two authenticate_if_needed _ => apply ob_auth
  | |- two startTLSNegotiation _ => apply ob_starttls
  | |- two (sendRaw3 _ _ _) _ => apply two_raw3
  end.
Qed.
Lemma two_mail : forall m1 m2 s1 s2, same_shape m1 m2 -> like s1 s2 -> nears (sendMail m1) (sendMail m2) s1 s2.
Proof.
  intros m1 m2 s1 s2 S L. set (k := fun m r => if negb (r =? 0) then ret r else updc (set_conn true);; mail_transaction m).
  assert (Q : two (c <- getc;; (if c_conn c then ret 0 else establish)) (c <- getc;; (if c_conn c then ret 0 else establish))) by (sb; apply ob_establish).
  assert (E : forall m s, sendMail m s = bind (c <- getc;; (if c_conn c then ret 0 else establish)) (k m) s) by reflexivity.
  unfold nears. rewrite !E. apply nears_bind; [apply Q, L|]. intros r t1 t2 L1. unfold k. destruct (negb (r =? 0)); [apply near_same; [apply ob_ret|exact L1]|].
  apply nears_bind; [assert (U : ob (updc (set_conn true))) by sb; apply U, L1|]. intros _ u1 u2 L2. apply two_transaction; assumption.
Qed.
Lemma ob_destroy : ob (cleanup;; ret 0). Proof. sb. apply ob_cleanup. Qed.
