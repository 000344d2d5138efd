(** The paths and the results of the phases of [sendMail]. *)

From Coq Require Import Ascii String List NArith ZArith Bool Lia ZifyBool ZifyNat ZifyN.
From Verif Require Import Base Lib ModelUtil ModelBase64 ModelAddress ModelAttachment
  ModelErrors ModelReply ModelMessage ModelState ModelClient ProofSteps ProofWalk.
Import ListNotations.
Open Scope Z_scope.

(** ** What is known when a phase succeeded *)

(** EHLO only changes the authentication options. *)
Definition core_a (c : client) : client := core (set_auth None c).

Lemma core_core_a : forall c d, core c = core d -> core_a c = core_a d.
Proof. intros c d H. change (core_a c) with (set_auth None (core c)). rewrite H. reflexivity. Qed.

Lemma ehlo_loop_core : forall n tmo opts s r s', r <> tmo -> ehlo_loop n tmo opts s = (Done r, s') ->
  core_a (s_c s') = core_a (s_c s).
Proof.
  induction n as [|n IH]; intros tmo opts s r s' N H; cbn [ehlo_loop] in H.
  - destruct (containsAllOptions opts); [|discriminate H].
    apply bind_done in H as (u & s1 & H1 & H). apply ret_done in H as [_ ->]. inversion H1; subst. reflexivity.
  - destruct (containsAllOptions opts).
    + apply bind_done in H as (u & s1 & H1 & H). apply ret_done in H as [_ ->]. inversion H1; subst. reflexivity.
    + apply bind_done in H as (code & s1 & H1 & H).
      assert (C := walk_core _ _ _ _ (quiet_reply s) H1). apply core_core_a in C.
      destruct (code =? -1); [apply ret_done in H as [H _]; congruence|].
      destruct (code =? 250) eqn:E; cbn [negb] in H; [|apply ret_done in H as [_ ->]; assumption].
      unfold bind at 1, getc in H. destruct (c_resp (s_c s1)); [|discriminate H].
      rewrite <- C. eapply IH; eauto.
Qed.

Lemma ehlo_core : forall err tmo s r s', err <> 0 -> err <> 250 -> tmo <> 250 -> r <> err -> r <> tmo ->
  ehlo_with err tmo s = (Done r, s') -> core_a (s_c s') = core_a (s_c s).
Proof.
  intros err tmo s r s' N0 N3 N4 N1 N2 H. unfold ehlo_with in H.
  apply bind_done in H as (u & s1 & H1 & H). destruct u. apply logc_core in H1 as [H1 _].
  apply bind_done in H as (code & s2 & H2 & H).
  destruct (code =? 250) eqn:E; cbn [negb] in H.
  - unfold bind at 1, getc in H. destruct (c_resp (s_c s2)) eqn:R; [|discriminate H].
    unfold bind at 1, gete in H.
    apply feedback_reply in H2 as [H2 _]; try lia.
    apply ehlo_loop_core in H; [|assumption]. rewrite H. apply core_core_a. congruence.
  - apply ret_done in H as [-> ->]. apply feedback_reply in H2 as [H2 _]; try assumption.
    apply core_core_a. congruence.
Qed.

Lemma ident_core : forall s r s', 0 <= r -> sendServerIdentification s = (Done r, s') -> core_a (s_c s') = core_a (s_c s).
Proof.
  intros s r s' L H. eapply ehlo_core; [| | | | |exact H];
    unfold SOCKET_INIT_CLIENT_SEND_EHLO_ERROR, SOCKET_INIT_CLIENT_SEND_EHLO_TIMEOUT; lia.
Qed.
Lemma secure_ident_core : forall s r s', 0 <= r -> getServerSecureIdentification s = (Done r, s') ->
  core_a (s_c s') = core_a (s_c s).
Proof.
  intros s r s' L H. unfold getServerSecureIdentification in H.
  apply bind_done in H as (u & s1 & H1 & H). destruct u. apply logc_core in H1 as [H1 _].
  rewrite <- (core_core_a _ _ H1). eapply ehlo_core; [| | | | |exact H];
    unfold SSL_CLIENT_INITSECURECLIENT_ERROR, SSL_CLIENT_INITSECURECLIENT_TIMEOUT; lia.
Qed.

Ltac auth_codes := unfold CLIENT_AUTHENTICATE_ERROR, CLIENT_AUTHENTICATE_TIMEOUT in *; lia.

Lemma auth_core : forall s r s', 0 <= r -> authenticateClient s = (Done r, s') -> core (s_c s') = core (s_c s).
Proof.
  intros s r s' L H. unfold authenticateClient in H. unfold bind at 1, getc in H.
  destruct (c_cred (s_c s)) as [cr|]; [|apply ret_done in H as [_ ->]; reflexivity].
  destruct (c_auth (s_c s)); [|discriminate H].
  assert (One : forall item cmd s0, (logc item;; sendFeedbackPtr cmd CLIENT_AUTHENTICATE_ERROR CLIENT_AUTHENTICATE_TIMEOUT) s0
    = (Done r, s') -> core (s_c s') = core (s_c s0)).
  { intros item cmd s0 X. apply bind_done in X as (u & s1 & X1 & X). destruct u. apply logc_core in X1 as [X1 _].
    apply feedback_ptr_reply in X; try auth_codes. congruence. }
  destruct (_ && _); [|destruct (_ && _); [|destruct (_ && _); [|apply ret_done in H as [_ ->]; reflexivity]]].
  - exact (One _ _ _ H).
  - unfold authLogin in H. apply bind_done in H as (u & s1 & H1 & H). destruct u. apply logc_core in H1 as [H1 _].
    apply bind_done in H as (r1 & s2 & H2 & H). unfold STATUS_CODE_SERVER_CHALLENGE in H.
    destruct (r1 =? 334) eqn:E1; cbn [negb] in H; [|apply ret_done in H as [H _]; auth_codes].
    apply feedback_ptr_reply in H2; try auth_codes.
    apply bind_done in H as (r2 & s3 & H3 & H).
    destruct (r2 =? 334) eqn:E2; cbn [negb] in H; [|apply ret_done in H as [H _]; auth_codes].
    apply feedback_ptr_reply in H3; try auth_codes.
    apply feedback_ptr_reply in H; try auth_codes. congruence.
  - exact (One _ _ _ H).
Qed.

Lemma auth_if_core : forall s r s', 0 <= r -> authenticate_if_needed s = (Done r, s') -> core (s_c s') = core (s_c s).
Proof.
  intros s r s' L H. unfold authenticate_if_needed in H. unfold bind at 1, getc in H.
  destruct (c_cred (s_c s)); [|apply ret_done in H as [_ ->]; reflexivity].
  apply bind_done in H as (r1 & s1 & H1 & H). unfold STATUS_CODE_AUTHENTICATION_SUCCEEDED in H.
  destruct (r1 =? 235) eqn:E; cbn [negb] in H; apply ret_done in H as [? ->];
    (apply auth_core in H1; [assumption|lia]).
Qed.

Lemma upgrade_core : forall s r s', 0 <= r -> upgradeToSecureConnection s = (Done r, s') ->
  core (s_c s') = core (s_c s).
Proof.
  intros s r s' L H. unfold upgradeToSecureConnection in H.
  apply bind_done in H as (u & s1 & H1 & H). destruct u. apply logc_core in H1 as [H1 _].
  apply raw3_reply in H as [H _];
    try (unfold SOCKET_INIT_CLIENT_SEND_STARTTLS_ERROR, SOCKET_INIT_CLIENT_SEND_STARTTLS_TIMEOUT; lia).
  congruence.
Qed.

Lemma greeting_core : forall s r s', checkServerGreetings s = (Done r, s') -> core (s_c s') = core (s_c s).
Proof. intros s r s' H. eapply walk_core; [|exact H]. apply walk_greetings; exact I. Qed.
Lemma greeting_tls_core : forall s r s', checkServerGreetingsTLS s = (Done r, s') -> core (s_c s') = core (s_c s).
Proof. intros s r s' H. eapply walk_core; [|exact H]. apply walk_greetings_tls; exact I. Qed.

(** ** A negotiated session *)

(** The events that make the TLS session [b] acceptable. *)
Definition accepted (selfsigned : bool) (b : nat) (t : list event) : Prop :=
  In (EvHandshake b true) t /\ In (EvCert b true) t /\
  exists r h, In (EvVerify b r h) t /\ (r = 0 \/ (r = 18 /\ selfsigned = true)).

Definition core_t (c : client) : client := core (set_ctx None (set_bio None c)).

Lemma core_core_t : forall c d, core c = core d -> core_t c = core_t d.
Proof. intros c d H. change (core_t c) with (set_ctx None (set_bio None (core c))). rewrite H. reflexivity. Qed.

Lemma emit_done : forall ev s u s', emit ev s = (Done u, s') -> s' = ev_state s ev.
Proof. intros ev s u s' H. inversion H. reflexivity. Qed.

Lemma tls_done : forall s s', startTLSNegotiation s = (Done 0, s') ->
  core_t (s_c s') = core_t (s_c s) /\ c_ctx (s_c s') = Some (e_next (s_e s)) /\
  c_bio (s_c s') = Some (mkBio (S (e_next (s_e s))) (c_sock (s_c s))) /\
  accepted (c_selfsigned (s_c s)) (S (e_next (s_e s))) (s_t s').
Proof.
  intros s s' H. unfold startTLSNegotiation in H.
  apply bind_done in H as (u & s1 & H1 & H). destruct u. apply logc_core in H1 as (H1 & HE1 & HT1 & _).
  unfold bind at 1, gete in H. destruct (e_tls (s_e s1)) as [|t l]; [discriminate H|].
  apply bind_done in H as (u2 & s2 & H2 & H). inversion H2; subst. clear H2.
  destruct (t_ctx t); cbn [negb] in H.
  2:{ apply bind_done in H as (? & ? & _ & H). apply bind_done in H as (? & ? & _ & H).
      apply ret_done in H as [H _]. discriminate H. }
  apply bind_done in H as (i & s3 & H3 & H). inversion H3; subst. clear H3.
  apply bind_done in H as (u4 & s4 & H4 & H). inversion H4; subst. clear H4.
  apply bind_done in H as (u5 & s5 & H5 & H). inversion H5; subst. clear H5.
  destruct (t_bio t); cbn [negb] in H.
  2:{ apply bind_done in H as (? & ? & _ & H). apply ret_done in H as [H _]. discriminate H. }
  apply bind_done in H as (i6 & s6 & H6 & H). inversion H6; subst. clear H6.
  unfold bind at 1, getc in H.
  apply bind_done in H as (u7 & s7 & H7 & H). inversion H7; subst. clear H7.
  apply bind_done in H as (u8 & s8 & H8 & H). inversion H8; subst. clear H8.
  cbn [s_c s_e s_t] in H.
  match type of H with match ?x with _ => _ end _ = _ => destruct x; [|discriminate H] end.
  match type of H with (if ?x then _ else _) _ = _ => destruct x; [discriminate H|] end.
  destruct (t_paths t); cbn [negb] in H; [|apply ret_done in H as [H _]; discriminate H].
  destruct (t_connect t); cbn [negb] in H.
  2:{ apply bind_done in H as (? & ? & _ & H). apply bind_done in H as (? & ? & _ & H).
      apply bind_done in H as (? & ? & _ & H). apply ret_done in H as [H _]. discriminate H. }
  apply bind_done in H as (u9 & s9 & H9 & H). destruct u9. apply addLog_core in H9 as (C9 & E9 & T9 & _).
  cbn [s_c s_e s_t] in C9, E9, T9.
  apply bind_done in H as (u10 & s10 & H10 & H). apply emit_done in H10. 
  destruct (t_handshake t); cbn [negb] in H.
  2:{ apply bind_done in H as (? & ? & _ & H). apply bind_done in H as (? & ? & _ & H).
      apply ret_done in H as [H _]. discriminate H. }
  apply bind_done in H as (u11 & s11 & H11 & H). destruct u11. apply addLog_core in H11 as (C11 & E11 & T11 & _).
  apply bind_done in H as (u12 & s12 & H12 & H). apply emit_done in H12.
  destruct (t_cert t); cbn [negb] in H.
  2:{ apply bind_done in H as (? & ? & _ & H). apply ret_done in H as [H _]. discriminate H. }
  apply bind_done in H as (u13 & s13 & H13 & H). apply emit_done in H13.
  unfold bind at 1, getc in H.
  subst s13 s12 s10. cbn [ev_state s_c s_e s_t] in *.
  assert (C : core (s_c s11) = core (set_bio (Some {| bio_id := S (e_next (s_e s1)); bio_fd := c_sock (s_c s1) |})
                 (set_ctx (Some (e_next (s_e s1))) (s_c s1)))) by congruence.
  clear C9 C11. rewrite HE1 in *.
  assert (Fin : forall s'', s'' = s' -> core (s_c s') = core (s_c s11) ->
    s_t s' = ((s_t s11 ++ [EvCert (S (e_next (s_e s))) true]) ++ [EvVerify (S (e_next (s_e s))) (t_verify t) (t_host t)]) ->
    t_verify t = 0 \/ (t_verify t = 18 /\ c_selfsigned (s_c s) = true) ->
    core_t (s_c s') = core_t (s_c s) /\ c_ctx (s_c s') = Some (e_next (s_e s)) /\
    c_bio (s_c s') = Some (mkBio (S (e_next (s_e s))) (c_sock (s_c s))) /\
    accepted (c_selfsigned (s_c s)) (S (e_next (s_e s))) (s_t s')).
  { intros s'' _ C' T V. rewrite C in C'. core_facts C'. core_facts H1. rewrite CFctx, CFbio.
    split; [|split; [reflexivity|split]].
    - apply core_core_t in C'. apply core_core_t in H1. rewrite C', <- H1. reflexivity.
    - simpl. rewrite CFsock0. reflexivity.
    - rewrite T, T11, T9. split; [|split; [|do 2 eexists; split; [|exact V]]];
        repeat (rewrite in_app_iff; simpl); tauto. }
  core_facts C. core_facts H1.
  destruct (_ && _) eqn:SS.
  - apply bind_done in H as (u14 & s14 & H14 & H). destruct u14. apply logs_core in H14 as (C14 & E14 & T14 & _).
    apply bind_done in H as (u15 & s15 & H15 & H). destruct u15. apply logc_core in H15 as (C15 & E15 & T15 & _).
    apply ret_done in H as [_ ->]. apply (Fin s15); [reflexivity|exact (eq_trans C15 C14)| |].
    + rewrite T15, T14. reflexivity.
    + right. unfold X509_V_ERR_DEPTH_ZERO_SELF_SIGNED_CERT in SS. rewrite CFself in SS. simpl in SS. rewrite CFself0 in SS.
      apply andb_true_iff in SS as [A1 A2]. split; [lia|assumption].
  - destruct (t_verify t =? X509_V_OK) eqn:V; cbn [negb] in H.
    + apply bind_done in H as (u15 & s15 & H15 & H). destruct u15. apply logc_core in H15 as (C15 & E15 & T15 & _).
      apply ret_done in H as [_ ->]. apply (Fin s15); [reflexivity|exact C15| |].
      * rewrite T15. reflexivity.
      * left. unfold X509_V_OK in V. lia.
    + unfold bind at 1, gete in H. apply bind_done in H as (? & ? & _ & H). apply bind_done in H as (? & ? & _ & H).
      apply ret_done in H as [H _]. discriminate H.
Qed.

(** ** Opening the socket *)

Definition core_s (c : client) : client := core (set_sock 0 c).

(** [initializeSessionPOSIX] after socket() succeeded. *)
Definition session_tail : M Z :=
  c <- getc;;
  match c_server c with
  | None => fail_ub (UB_NullDeref PServer)
  | Some name =>
      h <- sys_gethostbyname name;;
      match h with
      | None => ret SOCKET_INIT_SESSION_GETHOSTBYNAME_ERROR
      | Some len =>
          if len <? 0 then ret SOCKET_INIT_SESSION_GETHOSTBYNAME_ERROR
          else if 4 <? len then fail_ub (UB_BufferOverflow BufHost)
          else
            nb <- setSocketToNonBlocking;;
            if negb (nb =? 0) then ret 1
            else
              logc (B "Trying to connect to " ++ name ++ B " on port " ++ dec_of_N (c_port c));;
              r <- sys_connect;;
              match r with
              | None => setSocketToBlocking
              | Some er =>
                  if er =? EINPROGRESS then
                    w <- wait_connect;;
                    if w =? 0 then setSocketToBlocking else ret w
                  else log_errno er;; ret SOCKET_INIT_SESSION_CONNECT_ERROR
              end
      end
  end.

Lemma session_eq : forall s, initializeSessionPOSIX s =
  match e_sock (s_e s) with
  | [] => (Blocked, s)
  | SkErr er :: l =>
      (log_errno er;; ret SOCKET_INIT_SESSION_CREATION_ERROR)
        (mkSt (set_sock (-1) (s_c s)) (set_esock l (s_e s)) (s_t s ++ [EvSocket (SkErr er)]))
  | SkFd n :: l =>
      session_tail (mkSt (set_sock (Z.of_N n) (s_c s)) (set_esock l (s_e s)) (s_t s ++ [EvSocket (SkFd n)]))
  end.
Proof.
  intros s. unfold initializeSessionPOSIX. unfold bind at 1, gete.
  destruct (e_sock (s_e s)) as [|[n|er] l]; reflexivity.
Qed.

Lemma walk_session_tail : forall (P : label -> Prop), P LLog -> P LErrno -> P LEnv -> P LFcntl -> P LNet -> forall s, walk P session_tail s.
Proof.
  intros P P1 P2 P3 P4 P5 s. unfold session_tail. apply walk_getc.
  destruct (c_server (s_c s)) as [name|] eqn:N; [|apply walk_ub; exact N].
  apply walk_bind; [apply walk_gethostbyname; assumption|]. intros h s2 H2 _.
  destruct (gethostbyname_event _ _ _ _ H2) as [C2 T2].
  destruct h as [len|]; [|walks].
  destruct (len <? 0) eqn:L0; [walks|]. destruct (4 <? len) eqn:L4.
  - apply walk_ub. simpl. rewrite T2. do 2 eexists. f_equal.
    replace (0 <=? len) with true by lia. reflexivity.
  - walks; try (apply walk_nonblocking; assumption); try (apply walk_connect; assumption);
      try (apply walk_blocking; assumption);
      try (apply walk_wait_connect; assumption); try (apply walk_log_errno; assumption).
Qed.

Definition calm (l : label) : Prop := match l with LNet => True | _ => quiet l end.
Lemma quiet_calm : forall l, quiet l -> calm l.
Proof. intros []; simpl; tauto. Qed.
Lemma calm_core : forall s s', steps calm s s' -> core (s_c s') = core (s_c s).
Proof.
  intros s s' H. induction H as [|l s1 s2 s3 E Pl S IH]; [reflexivity|]. rewrite IH. destruct l; try (eapply estep_core; [exact E|exact Pl]).
  inversion E; subst. reflexivity.
Qed.
Lemma quiet_sock : forall s s', steps calm s s' -> e_sock (s_e s') = e_sock (s_e s).
Proof.
  intros s s' H. induction H; [reflexivity|]. rewrite IHsteps. destruct H; try destruct H0; try reflexivity.
  - apply H.
  - apply addLog_core in H as (_ & -> & _). reflexivity.
Qed.
Lemma quiet_log : forall s s', steps calm s s' -> c_log (s_c s) <> None -> c_log (s_c s') <> None.
Proof.
  intros s s' H. induction H; [auto|]. intros L. apply IHsteps. destruct H; try destruct H0; try assumption.
  unfold addLog, bind, getc in H. destruct (c_log (s_c s)); [|congruence]. cbv zeta in H.
  repeat match type of H with (if ?b then _ else _) _ = _ => destruct b end; try discriminate H.
  inversion H; subst. discriminate.
Qed.

Lemma core_s_eq : forall c d, core c = core d -> core_s c = core_s d.
Proof. intros c d H. change (core_s c) with (set_sock 0 (core c)). rewrite H. reflexivity. Qed.

Lemma initialize_core : forall s r s', initializeSession s = (Done r, s') ->
  core_s (s_c s') = core_s (s_c s) /\ c_log (s_c s') <> None /\
  match e_sock (s_e s) with
  | SkFd n :: l => c_sock (s_c s') = Z.of_N n /\ e_sock (s_e s') = l
  | SkErr _ :: l => r <> 0 /\ c_sock (s_c s') = -1 /\ e_sock (s_e s') = l
  | [] => False
  end.
Proof.
  intros s r s' H. unfold initializeSession in H. apply bind_done in H as (u & s1 & H1 & H).
  inversion H1; subst; clear H1. rewrite session_eq in H. cbn [s_c s_e s_t] in H.
  destruct (e_sock (s_e s)) as [|[n|er] l]; [discriminate H| |].
  - match type of H with session_tail ?x = _ => destruct (walk_session_tail calm I I I I I x) as [W _] end.
    rewrite H in W. cbn [snd] in W. assert (C := calm_core _ _ W). cbn [s_c] in C. core_facts C.
    split; [|split; [|split]].
    + apply core_s_eq in C. rewrite C. reflexivity.
    + eapply quiet_log; [exact W|]. discriminate.
    + exact CFsock.
    + apply quiet_sock in W. exact W.
  - apply bind_done in H as (u' & s2 & H2 & H). apply ret_done in H as [-> ->].
    match type of H2 with log_errno ?e ?x = _ => destruct (walk_log_errno calm I I e x) as [W _] end.
    rewrite H2 in W. cbn [snd] in W. assert (C := calm_core _ _ W). cbn [s_c] in C. core_facts C.
    split; [|split; [|split; [|split]]].
    + apply core_s_eq in C. rewrite C. reflexivity.
    + eapply quiet_log; [exact W|]. discriminate.
    + discriminate.
    + exact CFsock.
    + apply quiet_sock in W. exact W.
Qed.
