(** A timeout is reported only after a silence: the commands of a session. *)

From Coq Require Import Ascii String List NArith ZArith Bool Lia ZifyBool ZifyNat ZifyN.
From Verif Require Import Base Lib ModelUtil ModelAddress ModelAttachment ModelMessage ModelReply ModelErrors ModelState ModelClient
  ModelWorld SpecAddress SpecReply SpecErrors SpecDialogue SpecConn SpecPatience
  ProofReply ProofSteps ProofWalk ProofDialogue ProofMail ProofMail4 ProofConn ProofCode ProofTime ProofTls2 ProofPatience.
Import ListNotations.
Open Scope Z_scope.

Section Patience.
Variable T : N.
Local Notation late := (late T).
Ltac notin := match goal with |- ~ In _ timeout_codes => cbv; intuition discriminate end.
Ltac tm := first [simple apply timed_addLog|match goal with |- timed _ _ (logc _) => apply timed_addLog end|match goal with |- timed _ _ getc => apply timed_still; intros ?; split; reflexivity end|match goal with |- timed _ _ gete => apply timed_still; intros ?; split; reflexivity end|simple apply timed_cleanup|simple apply timed_cmd|simple apply timed_fb; discriminate|simple apply timed_auth|simple apply timed_identify|simple apply timed_identify_tls
  |simple apply timed_starttls|simple apply timed_upgrade|simple apply timed_greetings|simple apply timed_greetings_tls|simple apply timed_initialize|simple apply timed_recipients
  |simple apply timed_headers|simple apply timed_body|simple apply timed_chunks|simple apply timed_mail_from|simple apply timed_add|simple apply timed_nonblocking|simple apply timed_quit
  |simple apply timed_still; intros ?; split; reflexivity].
Ltac gm := intros; gs; first [simple apply grows_raw3|simple apply grows_feedback|simple apply grows_ehlo|simple apply grows_ehlo_loop|simple apply grows_auth|simple apply grows_auth_client
  |simple apply grows_starttls|simple apply grows_greetings|simple apply grows_greetings_tls|simple apply grows_identify|simple apply grows_identify_tls|simple apply grows_upgrade
  |simple apply grows_chunks|simple apply grows_quit|simple apply grows_add_recipients|simple apply grows_mail_from|idtac].

Lemma late_auth_client : late authenticateClient.
Proof.
  unfold authenticateClient. eapply (late_bind 0); [tm| |intros; unfold authPlain, authLogin, authXOauth2; gs].
  intros c. destruct (c_cred c) as [cr|]; [|apply late_ret; notin]. destruct (c_auth c) as [o|]; [|apply late_none; discriminate].
  assert (P : forall x d, late (logc x;; sendFeedbackPtr d CLIENT_AUTHENTICATE_ERROR CLIENT_AUTHENTICATE_TIMEOUT)).
  { intros x d. eapply (late_bind 0); [tm|intros _; apply late_fb; notin|gm]. }
  destruct (_ && _); [apply P|]. destruct (_ && _); [|destruct (_ && _); [apply P|apply late_ret; notin]].
  unfold authLogin. eapply (late_bind 0); [tm| |gm]. intros _.
  eapply (late_bind 0); [tm| |gm]. intros r1. destruct (negb _); [apply late_ret; notin|].
  eapply (late_bind 0); [tm| |gm]. intros r2. destruct (negb _); [apply late_ret; notin|]. apply late_fb; notin.
Qed.
Lemma timed_auth_client : timed T 0 authenticateClient.
Proof.
  unfold authenticateClient, authPlain, authLogin, authXOauth2.
  apply timed_bind0; [tm|]. intros c. destruct (c_cred c); [|tm]. destruct (c_auth c); [|tm].
  repeat match goal with |- timed _ _ (if ?b then _ else _) => destruct b end;
    repeat (first [tm|apply timed_bind0; [tm|intros ?]|match goal with |- timed _ _ (if ?b then _ else _) => destruct b end]).
Qed.
Lemma late_auth : late authenticate_if_needed.
Proof.
  unfold authenticate_if_needed. eapply (late_bind 0); [tm| |gm].
  intros c. destruct (c_cred c); [|apply late_ret; notin].
  eapply (late_if 0); [apply late_auth_client|apply timed_auth_client|apply late_ret; notin|gm].
Qed.
Lemma late_identify : late sendServerIdentification.
Proof. apply late_ehlo; [discriminate|discriminate|discriminate|notin]. Qed.
Lemma late_identify_tls : late getServerSecureIdentification.
Proof.
  unfold getServerSecureIdentification. eapply (late_bind 0); [tm| |gm].
  intros _. apply late_ehlo; [discriminate|discriminate|discriminate|notin].
Qed.
Lemma late_upgrade : late upgradeToSecureConnection.
Proof. unfold upgradeToSecureConnection. eapply (late_bind 0); [tm|intros _; apply late_raw3; notin|gm]. Qed.
Lemma codes_not_timeout : forall m l, (forall s r s', m s = (Done r, s') -> In r l) -> (forall r, In r l -> ~ In r timeout_codes) -> late m.
Proof. intros m l H N s r s' t E X _ _ I. elim (N r (H _ _ _ X) I). Qed.
Lemma late_starttls : late startTLSNegotiation.
Proof.
  apply (codes_not_timeout _ [0; SSL_CLIENT_STARTTLS_INITSSLCTX_ERROR; SSL_CLIENT_STARTTLS_BIONEWSSLCONNECT_ERROR;
    SSL_CLIENT_STARTTLS_CTX_SET_DEFAULT_VERIFY_PATHS_ERROR; SSL_CLIENT_STARTTLS_BIO_CONNECT_ERROR;
    SSL_CLIENT_STARTTLS_BIO_HANDSHAKE_ERROR; SSL_CLIENT_STARTTLS_GET_CERTIFICATE_ERROR; SSL_CLIENT_STARTTLS_VERIFY_RESULT_ERROR]).
  2: { intros r H. cbv in H. cbv. intuition (subst; discriminate). }
  intros s r s' H. unfold startTLSNegotiation in H.
  repeat (match type of H with
    | bind _ _ _ = _ => let a := fresh in let s1 := fresh in apply bind_done in H as (a & s1 & _ & H)
    | ret _ _ = _ => apply ret_done in H as [-> _]; cbv; tauto
    | (if ?b then _ else _) _ = _ => destruct b
    | (match ?x with _ => _ end) _ = _ => destruct x
    | _ => discriminate H
    end; cbv zeta in H).
Qed.

(** ** The mail transaction *)
Lemma late_mail_from : forall fmts last, ~ In last timeout_codes -> late (mail_from_loop fmts last).
Proof.
  induction fmts as [|f l IH]; intros last N; cbn [mail_from_loop]; [apply late_ret, N|].
  eapply (late_bind 0); [tm| |intros; apply (grows_bind); [apply grows_fb|intros ?; gs; apply grows_mail_from]].
  intros _ s r s' t E H Tt G I. apply bind_done in H as (a & s1 & H1 & H).
  assert (L : late (sendFeedbackPtr f CLIENT_SENDMAIL_MAILFROM_ERROR CLIENT_SENDMAIL_MAILFROM_TIMEOUT)) by (apply late_fb; notin).
  assert (X : ext s1 s').
  { destruct (a =? 250); [apply ret_done in H as [_ ->]; apply ext_refl|].
    destruct (negb (a =? 501)); [apply ret_done in H as [_ ->]; apply ext_refl|].
    assert (Y := grows_mail_from l a s1). rewrite H in Y. exact Y. }
  assert (Tf : timed T 0 (sendFeedbackPtr f CLIENT_SENDMAIL_MAILFROM_ERROR CLIENT_SENDMAIL_MAILFROM_TIMEOUT)) by tm.
  destruct (timed_split 0 _ s _ s1 s' t Tf E H1 Tt X) as (E1 & t1 & t2 & T1 & T2 & ->).
  apply coded_reads_app in G as [G1 G2].
  destruct (a =? 250); [apply ret_done in H as [-> ->]; apply silence_before; exact (L s _ s1 t1 E H1 T1 G1 I)|].
  destruct (Z.eqb_spec a 501) as [->|Na]; cbn [negb] in H.
  - apply silence_after. eapply (IH 501); [notin|exact E1|exact H|exact T2|exact G2|exact I].
  - apply ret_done in H as [-> ->]. apply silence_before. exact (L s _ s1 t1 E H1 T1 G1 I).
Qed.
Lemma late_add : forall l result s r s' t0 t, c_timeout (s_c s) = T -> (In result timeout_codes -> silence T t0) ->
  addMailRecipients l result s = (Done r, s') -> s_t s' = s_t s ++ t -> coded_reads t -> In r timeout_codes -> silence T (t0 ++ t).
Proof.
  induction l as [|a l IH]; intros result s r s' t0 t E P H Tt G I; cbn [addMailRecipients] in H.
  - apply ret_done in H as [-> ->]. apply silence_before, P, I.
  - apply bind_done in H as (u & s0 & H0 & H). apply log_trace in H0 as T0.
    assert (E0 : c_timeout (s_c s0) = T).
    { destruct (timed_addLog T (rcpt_command a) (B "c") s E) as [X _]. unfold logc in H0. rewrite H0 in X. exact X. }
    apply bind_done in H as (code & s1 & H1 & H).
    match type of H with addMailRecipients _ ?x _ = _ => set (res := x) in H;
      assert (X := grows_add_recipients l x s1) end. subst res. rewrite H in X. cbn [snd] in X.
    assert (L : late (sendFeedbackPtr (rcpt_command a) CLIENT_SENDMAIL_RCPTTO_ERROR CLIENT_SENDMAIL_RCPTTO_TIMEOUT)) by (apply late_fb; notin).
    assert (Tf : timed T 0 (sendFeedbackPtr (rcpt_command a) CLIENT_SENDMAIL_RCPTTO_ERROR CLIENT_SENDMAIL_RCPTTO_TIMEOUT)) by tm.
    rewrite <- T0 in Tt.
    destruct (timed_split 0 _ s0 _ s1 s' t Tf E0 H1 Tt X) as (E1 & t1 & t2 & T1 & T2 & ->).
    apply coded_reads_app in G as [G1 G2]. rewrite app_assoc.
    eapply (IH _ s1 r s' (t0 ++ t1) t2 E1); [|exact H|exact T2|exact G2|exact I].
    destruct (code =? 250); intros J; [apply silence_before, P, J|].
    apply silence_after. exact (L s0 _ s1 t1 E0 H1 T1 G1 J).
Qed.
Lemma late_recipients_loop : forall ls, late (recipients_loop ls).
Proof.
  induction ls as [|[n|l] ls IH]; cbn [recipients_loop]; [apply late_ret; notin|exact IH|].
  eapply (late_if 0); [|tm|exact IH|apply grows_recipients_loop].
  intros s r s' t E H Tt G I. eapply (late_add l 250 s r s' [] t E); [intros J; exfalso; revert J; change (~ In 250 timeout_codes); notin|exact H|exact Tt|exact G|exact I].
Qed.
Lemma late_recipients : forall m, late (setMailRecipients m).
Proof.
  intros m. unfold setMailRecipients. eapply (late_if 0); [apply late_mail_from; notin|tm|apply late_recipients_loop|apply grows_recipients_loop].
Qed.
Lemma late_headers : forall m, late (setMailHeaders m).
Proof.
  intros m. unfold setMailHeaders, addMailHeader.
  assert (TA : forall f a, timed T 0 (address_header f a)).
  { intros f a. unfold address_header, addMailHeader. destruct a as [[|n]|[|x l]]; try tm.
    apply timed_bind0; [apply timed_bind0; [tm|intros; tm]|intros; tm]. }
  eapply (late_bind 0); [tm| |gm]. intros _.
  eapply (late_if 0); [apply late_fb; notin|tm| |gm].
  eapply (late_if 0); [eapply (late_bind 0); [tm|intros _; apply late_cmd; [discriminate|notin]|gm]|apply timed_bind0; [tm|intros; tm]| |gm].
  eapply (late_bind 0); [apply TA| |gm]. intros _. eapply (late_bind 0); [apply TA| |gm]. intros _.
  eapply (late_bind 0); [tm| |gm]. intros _. eapply (late_if 0); [apply late_cmd; [discriminate|notin]|tm| |gm].
  eapply (late_bind 0); [tm| |gm]. intros _. eapply (late_if 0); [apply late_cmd; [discriminate|notin]|tm|apply late_ret; notin|gm].
Qed.
Lemma late_chunks : forall l err, err <> 0 -> ~ In err timeout_codes -> late (send_chunks l err).
Proof.
  induction l as [|x l IH]; intros err N0 N; cbn [send_chunks]; [apply late_ret; notin|].
  eapply (late_if 0); [apply late_cmd; assumption|tm|apply IH; assumption|apply grows_chunks].
Qed.
Lemma late_body : forall m, late (setMailBody m).
Proof.
  intros m. unfold setMailBody. eapply (late_bind 0); [tm| |gm]. intros _.
  eapply (late_bind 0); [tm| |gm]. intros e. eapply (late_bind 0); [tm| |gm]. intros body.
  eapply (late_if 0); [destruct (_ <? _)%nat; apply late_chunks; first [discriminate|notin]|tm| |gm].
  eapply (late_bind 0); [tm| |gm]. intros _. eapply (late_if 0); [apply late_fb; notin|tm| |gm].
  eapply (late_bind 0); [tm| |gm]. intros c. destruct (c_batch c); [apply late_ret; notin|].
  eapply (late_if 0); [|tm|apply late_ret; notin|gm].
  unfold sendQuitCommand, sendQuit_with. change (sendCommandPtr_with cleanup) with sendCommandPtr.
  eapply (late_bind 0); [tm|intros _; apply late_cmd; [discriminate|notin]|gm].
Qed.
Lemma late_transaction : forall m, late (mail_transaction m).
Proof.
  intros m. unfold mail_transaction. eapply (late_if 0); [apply late_recipients|tm| |gm].
  eapply (late_if 0); [apply late_headers|tm| |gm]. eapply (late_if 0); [apply late_body|tm| |gm].
  eapply (late_bind 0); [tm| |gm]. intros c. eapply (late_bind 0); [destruct (c_batch c); tm|intros _; apply late_ret; notin|gm].
Qed.

(** ** The connection *)
Definition tame {A} (m : M A) : Prop := timed T 0 m /\ forall s, e_select (s_e (snd (m s))) = e_select (s_e s).
Definition expires (m : M Z) : Prop := forall s r s' t, c_timeout (s_c s) = T -> m s = (Done r, s') ->
  s_t s' = s_t s ++ t -> In r timeout_codes ->
  (nth_answer 0 (e_select (s_e s)) SelReady = SelTimeout \/ nth_answer 0 (e_select (s_e s)) SelReady = SelErr 4) /\
  exists fd, In (EvSelect fd T) t.

Lemma expires_ret : forall r, ~ In r timeout_codes -> expires (ret r).
Proof. intros r N s x s' t E H Tt I. apply ret_done in H as [-> _]. contradiction. Qed.
Lemma expires_none : forall (m : M Z), (forall s r s', m s <> (Done r, s')) -> expires m.
Proof. intros m H s r s' t E X. elim (H _ _ _ X). Qed.
Lemma expires_bind : forall {A} (m : M A) k, tame m -> (forall a, expires (k a)) -> (forall a, grows (k a)) -> expires (bind m k).
Proof.
  intros A m k [Hm Sm] Hk Gk s r s' t E H Tt I. apply bind_done in H as (a & s1 & H1 & H).
  assert (X := Gk a s1). rewrite H in X. cbn [snd] in X. specialize (Sm s). rewrite H1 in Sm. cbn [snd] in Sm.
  destruct (timed_split 0 m s _ s1 s' t Hm E H1 Tt X) as (E1 & t1 & t2 & T1 & T2 & ->). rewrite <- Sm.
  destruct (Hk a s1 r s' t2 E1 H T2 I) as (P & fd & J). split; [exact P|]. exists fd. apply in_or_app. auto.
Qed.
Lemma tame_bind : forall {A C} (m : M A) (k : A -> M C), tame m -> (forall a, tame (k a)) -> tame (bind m k).
Proof.
  intros A C m k [Hm Sm] Hk. split; [apply timed_bind0; [exact Hm|intros a; apply Hk]|].
  intros s. unfold bind. specialize (Sm s). destruct (m s) as [[a| | | | |] s1]; cbn [snd] in *; auto.
  rewrite <- Sm. apply (Hk a).
Qed.
Lemma tame_still : forall {A} (m : M A), timed T 0 m -> (forall s, s_e (snd (m s)) = s_e s) -> tame m.
Proof. intros A m Hm H. split; [exact Hm|]. intros s. rewrite H. reflexivity. Qed.
Lemma log_env : forall i p s, s_e (snd (addLog i p s)) = s_e s.
Proof.
  intros i p s. unfold addLog, bind, getc. destruct (c_log (s_c s)); [|reflexivity]. cbv zeta.
  repeat match goal with |- s_e (snd ((if ?b then _ else _) _)) = _ => destruct b end; reflexivity.
Qed.
Ltac ta := repeat match goal with
  | |- tame (bind _ _) => apply tame_bind; [|intros ?]
  | |- tame (match ?x with _ => _ end) => destruct x
  | |- tame (logc _) => split; [apply timed_addLog|intros ?; unfold logc; rewrite log_env; reflexivity]
  | |- tame (emit _) => split; [apply timed_emit; reflexivity|intros ?; reflexivity]
  | |- tame _ => split; [apply timed_still; intros ?; split; reflexivity|intros ?; reflexivity]
  end.
Lemma tame_errno : forall er, tame (log_errno er).
Proof. intros er. unfold log_errno. ta. Qed.
Lemma tame_fcntl : forall m, tame (sys_fcntl m).
Proof. intros m. unfold sys_fcntl. ta. Qed.
Lemma tame_nonblocking : tame setSocketToNonBlocking.
Proof. unfold setSocketToNonBlocking. ta; first [apply tame_errno|apply tame_fcntl]. Qed.
Lemma tame_resolve : forall n, tame (sys_gethostbyname n).
Proof. intros n. unfold sys_gethostbyname. ta. Qed.
Lemma tame_connect : tame sys_connect.
Proof. unfold sys_connect. ta. Qed.

Lemma expires_blocking : expires setSocketToBlocking.
Proof.
  intros s r s' t E H Tt I. exfalso. apply blocking_env in H. subst r.
  destruct (succeeded _) in I; [destruct (succeeded _) in I|]; revert I; match goal with |- In ?x _ -> False => change (~ In x timeout_codes) end; notin.
Qed.
Lemma expires_wait : expires wait_connect.
Proof.
  intros s r s' t E H Tt I. unfold wait_connect, bind at 1, getc in H. destruct (FD_SETSIZE <=? c_sock (s_c s)); [discriminate H|].
  apply bind_done in H as (u & s1 & H1 & H). inversion H1; subst u s1. clear H1. unfold bind at 1, gete in H. cbn [s_e] in H.
  apply bind_done in H as (q & s2 & H2 & H).
  assert (Q : q = nth_answer 0 (e_select (s_e s)) SelReady /\ s_t s2 = s_t s ++ [EvSelect (c_sock (s_c s)) (c_timeout (s_c s))]).
  { destruct (e_select (s_e s)); [apply ret_done in H2 as [-> ->]; auto|].
    apply bind_done in H2 as (u & s3 & H3 & H2). apply ret_done in H2 as [-> ->]. inversion H3; subst. auto. }
  destruct Q as [Q1 Q2]. rewrite <- Q1.
  assert (X : ext s2 s').
  { match type of H with ?m s2 = _ => assert (Y : grows m) end; [|specialize (Y s2); rewrite H in Y; exact Y].
    unfold log_errno. destruct q; gs; apply grows_gete0. }
  destruct X as (t2 & X). split.
  - destruct q as [| |er]; [|left; reflexivity|].
    + exfalso. apply bind_done in H as (e & s3 & H3 & H). apply bind_done in H as (o & s4 & H4 & H). destruct o as [er|v].
      * apply bind_done in H as (u & s5 & H5 & H). apply ret_done in H as [-> _]. revert I. change (~ In SOCKET_INIT_SESSION_GET_SOCKET_OPTIONS_ERROR timeout_codes). notin.
      * destruct (v =? 0); [apply ret_done in H as [-> _]; revert I; change (~ In 0 timeout_codes); notin|].
        apply bind_done in H as (u & s5 & H5 & H). apply ret_done in H as [-> _]. revert I. change (~ In SOCKET_INIT_SESSION_DELAYED_CONNECTION_ERROR timeout_codes). notin.
    + destruct (Z.eqb_spec er EINTR) as [->|N]; [right; reflexivity|]. exfalso.
      apply bind_done in H as (u & s5 & H5 & H). apply ret_done in H as [-> _]. revert I. change (~ In SOCKET_INIT_SESSION_CONNECT_ERROR timeout_codes). notin.
  - rewrite X, Q2, <- app_assoc in Tt. apply app_inv_head in Tt. rewrite <- Tt, E. eexists. left. reflexivity.
Qed.
Ltac gi := intros; unfold log_errno; gs; first [apply grows_nonblocking|apply grows_blocking|apply grows_wait_connect|apply grows_connect|apply grows_resolve|idtac].
Lemma expires_connected : expires (w <- wait_connect;; if w =? 0 then setSocketToBlocking else ret w).
Proof.
  intros s r s' t E H Tt I. apply bind_done in H as (w & s1 & H1 & H).
  assert (X : ext s1 s').
  { destruct (w =? 0); [|apply ret_done in H as [_ ->]; apply ext_refl]. assert (Y := grows_blocking s1). rewrite H in Y. exact Y. }
  destruct X as (t2 & X). assert (Y := grows_wait_connect s). rewrite H1 in Y. destruct Y as (t1 & Y). cbn [snd] in Y.
  rewrite X, Y, <- app_assoc in Tt. apply app_inv_head in Tt. subst t.
  destruct (w =? 0).
  - exfalso. apply blocking_env in H. subst r.
    destruct (succeeded _) in I; [destruct (succeeded _) in I|]; revert I; match goal with |- In ?x _ -> False => change (~ In x timeout_codes) end; notin.
  - apply ret_done in H as [-> ->]. destruct (expires_wait s w s1 t1 E H1 Y I) as (P & fd & J).
    split; [exact P|]. exists fd. apply in_or_app. auto.
Qed.
Lemma expires_initialize : expires initializeSession.
Proof.
  unfold initializeSession, initializeSessionPOSIX.
  apply expires_bind; [ta|intros _|gi]. apply expires_bind; [ta|intros e|gi].
  destruct (e_sock e) as [|[n|er] l]; [apply expires_none; discriminate| |].
  - apply expires_bind; [ta|intros _|gi]. apply expires_bind; [ta|intros _|gi]. apply expires_bind; [ta|intros _|gi].
    apply expires_bind; [ta|intros c|gi]. destruct (c_server c) as [name|]; [|apply expires_none; discriminate].
    apply expires_bind; [apply tame_resolve|intros h|gi]. destruct h as [len|]; [|apply expires_ret; notin].
    destruct (len <? 0); [apply expires_ret; notin|]. destruct (4 <? len); [apply expires_none; discriminate|].
    apply expires_bind; [apply tame_nonblocking|intros nb|gi]. destruct (negb _); [apply expires_ret; notin|].
    apply expires_bind; [ta|intros _|gi]. apply expires_bind; [apply tame_connect|intros r|gi].
    destruct r as [er|]; [|apply expires_blocking]. destruct (er =? EINPROGRESS); [apply expires_connected|].
    apply expires_bind; [apply tame_errno|intros _; apply expires_ret; notin|gi].
  - apply expires_bind; [ta|intros _|gi]. apply expires_bind; [ta|intros _|gi]. apply expires_bind; [ta|intros _|gi].
    apply expires_bind; [apply tame_errno|intros _; apply expires_ret; notin|gi].
Qed.

Lemma grows_transaction_all : forall m, grows (mail_transaction m).
Proof. intros m. unfold mail_transaction. gs. Qed.

(** ** A sending operation *)
Definition patient (m : M Z) : Prop := forall s r s' t, c_timeout (s_c s) = T -> m s = (Done r, s') ->
  s_t s' = s_t s ++ t -> coded_reads t -> In r timeout_codes -> nth_answer 0 (e_select (s_e s)) SelReady <> SelErr 4 ->
  silence T t \/ connection_expired T (s_e s) t.
Lemma patient_connect : forall k, late k -> grows k -> patient (r <- initializeSession;; if negb (r =? 0) then ret r else k).
Proof.
  intros k Lk Gk s r s' t E H Tt G I N. apply bind_done in H as (a & s1 & H1 & H).
  destruct (negb (a =? 0)).
  - apply ret_done in H as [-> ->]. right. destruct (expires_initialize s a s1 t E H1 Tt I) as ([P|P] & X); [|contradiction].
    split; assumption.
  - assert (X := Gk s1). rewrite H in X. cbn [snd] in X.
    destruct (timed_split 0 _ s _ s1 s' t (timed_initialize T) E H1 Tt X) as (E1 & t1 & t2 & T1 & T2 & ->).
    apply coded_reads_app in G as [G1 G2]. left. apply silence_after. eapply Lk; eassumption.
Qed.
Lemma patient_establish : patient establish.
Proof.
  intros s r s' t E H. unfold establish, bind at 1, getc in H. revert r s' t E H. destruct (c_kind (s_c s)); apply patient_connect.
  - eapply (late_if 1); [apply late_greetings|tm| |gm]. eapply (late_if 0); [apply late_identify|tm|apply late_auth|gm].
  - gm.
  - eapply (late_if 1); [apply late_greetings|tm| |gm]. eapply (late_if 0); [apply late_identify|tm| |gm].
    eapply (late_bind 0); [tm| |gm]. intros c. eapply (late_bind 0); [apply timed_still; intros ?; split; reflexivity| |gm].
    intros [|].
    + eapply (late_bind 0); [tm| |gm]. intros _. eapply (late_if 0); [apply late_upgrade|tm| |gm].
      eapply (late_if 0); [apply late_starttls|tm| |gm]. eapply (late_if 0); [apply late_identify_tls|tm|apply late_auth|gm].
    + eapply (late_bind 0); [tm| |gm]. intros _. eapply (late_bind 0); [apply timed_still; intros ?; split; reflexivity| |gm].
      intros _. apply late_ret; notin.
  - gm.
  - eapply (late_if 0); [apply late_starttls|tm| |gm]. eapply (late_if 1); [apply late_greetings_tls|tm| |gm].
    eapply (late_if 0); [apply late_identify_tls|tm|apply late_auth|gm].
  - gm.
Qed.
Lemma patient_send : forall m, patient (sendMail m).
Proof.
  intros m s r s' t E H Tt G I N. unfold sendMail, bind at 1, getc in H. apply bind_done in H as (a & s1 & H1 & H).
  destruct (negb (a =? 0)) eqn:Z.
  - apply ret_done in H as [-> ->]. destruct (c_conn (s_c s)); [apply ret_done in H1 as [-> ->]; discriminate Z|].
    eapply patient_establish; eassumption.
  - assert (X : ext s1 s').
    { assert (Y : grows (updc (set_conn true);; mail_transaction m)) by (gs; apply grows_transaction_all).
      specialize (Y s1). rewrite H in Y. exact Y. }
    assert (Te : timed T 1 (if c_conn (s_c s) then ret 0 else establish)).
    { destruct (c_conn (s_c s)); [apply timed_weak; tm|apply timed_establish]. }
    destruct (timed_split 1 _ s _ s1 s' t Te E H1 Tt X) as (E1 & t1 & t2 & T1 & T2 & ->).
    apply coded_reads_app in G as [G1 G2]. left. apply silence_after.
    assert (L : late (updc (set_conn true);; mail_transaction m)).
    { eapply (late_bind 0); [tm|intros _; apply late_transaction|gm; apply grows_transaction_all]. }
    exact (L s1 r s' t2 E1 H T2 G2 I).
Qed.
End Patience.

Lemma world_patience : forall i c m w r w' t, get_client w i = Some c ->
  step (OSend i m) w = (Done r, w') -> w_trace w' = w_trace w ++ t -> In r timeout_codes -> coded_reads t ->
  nth_answer 0 (e_select (w_env w)) SelReady <> SelErr 4 ->
  silence (c_timeout c) t \/ connection_expired (c_timeout c) (w_env w) t.
Proof.
  intros i c m w r w' t G S T I C N. destruct (step_send _ _ _ _ _ _ G S) as (X & _ & T' & _).
  rewrite T' in T. eapply (patient_send (c_timeout c) m (mkSt c (w_env w) (w_trace w))); eauto.
  destruct (sendMail m (mkSt c (w_env w) (w_trace w))) as [o s'] eqn:Q. cbn [fst snd] in *. subst o. reflexivity.
Qed.
