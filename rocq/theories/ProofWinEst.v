(** The paths of the Windows versions of establishConnectionWithServer and of
    sendMail (compare ProofPhases.v, ProofEstablish.v and ProofSend.v). *)

From Coq Require Import Ascii String List NArith ZArith Bool Lia ZifyBool ZifyNat ZifyN.
From Verif Require Import Base Lib ModelUtil ModelBase64 ModelAddress ModelAttachment
  ModelErrors ModelReply ModelMessage ModelState ModelClient ProofText ProofSteps ProofWalk ProofPhases ProofEstablish
  ProofLog ProofSend ModelWorld ModelWin ProofWinWalk ProofWinWalk2.
Import ListNotations.
Open Scope Z_scope.

(** ** What is known when a phase succeeded *)

Lemma xehlo_loop_core : forall n tmo opts v r v', r <> tmo -> ehlo_loopW n tmo opts v = (Done r, v') ->
  core_a (v_c v') = core_a (v_c v).
Proof.
  induction n as [|n IH]; intros tmo opts v r v' N H; cbn [ehlo_loopW] in H.
  - destruct (containsAllOptions opts).
    + apply wbind_done in H as (u & v1 & H1 & H). apply wret_done in H as [_ ->].
      apply base_done in H1 as (s1 & H1 & ->). inversion H1; subst. reflexivity.
    + apply base_done in H as (s1 & H & _). discriminate H.
  - destruct (containsAllOptions opts).
    + apply wbind_done in H as (u & v1 & H1 & H). apply wret_done in H as [_ ->].
      apply base_done in H1 as (s1 & H1 & ->). inversion H1; subst. reflexivity.
    + apply wbind_done in H as (code & v1 & H1 & H).
      assert (C := ww_core _ _ _ _ (xreply quiet (fun l h => h) v) H1). apply core_core_a in C.
      destruct (code =? -1); [apply wret_done in H as [H _]; congruence|].
      destruct (code =? 250) eqn:E; cbn [negb] in H; [|apply wret_done in H as [_ ->]; assumption].
      apply wbind_done in H as (c & v2 & H2 & H). apply getc_done in H2 as [-> ->].
      destruct (c_resp (v_c v1)); [|apply base_done in H as (s1 & H & _); discriminate H].
      rewrite <- C. eapply IH; eauto.
Qed.

Lemma xehlo_core : forall err tmo v r v', err <> 0 -> err <> 250 -> tmo <> 250 -> r <> err -> r <> tmo ->
  ehlo_withW err tmo v = (Done r, v') -> core_a (v_c v') = core_a (v_c v).
Proof.
  intros err tmo v r v' N0 N3 N4 N1 N2 H. unfold ehlo_withW in H.
  apply wbind_done in H as (u & v1 & H1 & H). apply wlogc_core in H1 as [H1 _].
  apply wbind_done in H as (code & v2 & H2 & H).
  destruct (code =? 250) eqn:E; cbn [negb] in H.
  - apply xfeedback_reply in H2 as [H2 _]; try lia.
    apply wbind_done in H as (c & v3 & H3 & H). apply getc_done in H3 as [-> ->].
    destruct (c_resp (v_c v2)); [|apply base_done in H as (s1 & H & _); discriminate H].
    apply wbind_done in H as (e & v3 & H3 & H). apply gete_done in H3 as [-> ->].
    apply xehlo_loop_core in H; [|assumption]. rewrite H. apply core_core_a. congruence.
  - apply wret_done in H as [-> ->]. apply xfeedback_reply in H2 as [H2 _]; try lia.
    apply core_core_a. congruence.
Qed.
Lemma xident_core : forall v r v', 0 <= r -> sendServerIdentificationW v = (Done r, v') -> core_a (v_c v') = core_a (v_c v).
Proof.
  intros v r v' L H. eapply xehlo_core; [| | | | |exact H];
    unfold SOCKET_INIT_CLIENT_SEND_EHLO_ERROR, SOCKET_INIT_CLIENT_SEND_EHLO_TIMEOUT; lia.
Qed.
Lemma xsecure_ident_core : forall v r v', 0 <= r -> getServerSecureIdentificationW v = (Done r, v') ->
  core_a (v_c v') = core_a (v_c v).
Proof.
  intros v r v' L H. unfold getServerSecureIdentificationW in H.
  apply wbind_done in H as (u & v1 & H1 & H). apply wlogc_core in H1 as [H1 _].
  rewrite <- (core_core_a _ _ H1). eapply xehlo_core; [| | | | |exact H];
    unfold SSL_CLIENT_INITSECURECLIENT_ERROR, SSL_CLIENT_INITSECURECLIENT_TIMEOUT; lia.
Qed.

Ltac auth_codes := unfold CLIENT_AUTHENTICATE_ERROR, CLIENT_AUTHENTICATE_TIMEOUT in *; lia.

Lemma xauth_core : forall v r v', 0 <= r -> authenticateClientW v = (Done r, v') -> core (v_c v') = core (v_c v).
Proof.
  intros v r v' L H. unfold authenticateClientW in H.
  apply wbind_done in H as (c & v3 & H3 & H). apply getc_done in H3 as [-> ->].
  destruct (c_cred (v_c v)) as [cr|]; [|apply wret_done in H as [_ ->]; reflexivity].
  destruct (c_auth (v_c v)); [|apply base_done in H as (s1 & H & _); discriminate H].
  assert (One : forall item cmd v0, (base (logc item) ;;# sendFeedbackPtrW cmd CLIENT_AUTHENTICATE_ERROR CLIENT_AUTHENTICATE_TIMEOUT) v0
    = (Done r, v') -> core (v_c v') = core (v_c v0)).
  { intros item cmd v0 X. apply wbind_done in X as (u & v1 & X1 & X). apply wlogc_core in X1 as [X1 _].
    apply xfeedback_ptr_reply in X; try auth_codes. congruence. }
  destruct (_ && _); [|destruct (_ && _); [|destruct (_ && _); [|apply wret_done in H as [_ ->]; reflexivity]]].
  - exact (One _ _ _ H).
  - unfold authLoginW in H. apply wbind_done in H as (u & v1 & H1 & H). apply wlogc_core in H1 as [H1 _].
    apply wbind_done in H as (r1 & v2 & H2 & H). unfold STATUS_CODE_SERVER_CHALLENGE in H.
    destruct (r1 =? 334) eqn:E1; cbn [negb] in H; [|apply wret_done in H as [H _]; auth_codes].
    apply xfeedback_ptr_reply in H2; try auth_codes.
    apply wbind_done in H as (r2 & v3 & H3 & H).
    destruct (r2 =? 334) eqn:E2; cbn [negb] in H; [|apply wret_done in H as [H _]; auth_codes].
    apply xfeedback_ptr_reply in H3; try auth_codes.
    apply xfeedback_ptr_reply in H; try auth_codes. congruence.
  - exact (One _ _ _ H).
Qed.
Lemma xauth_if_core : forall v r v', 0 <= r -> authenticate_if_neededW v = (Done r, v') -> core (v_c v') = core (v_c v).
Proof.
  intros v r v' L H. unfold authenticate_if_neededW in H.
  apply wbind_done in H as (c & v3 & H3 & H). apply getc_done in H3 as [-> ->].
  destruct (c_cred (v_c v)); [|apply wret_done in H as [_ ->]; reflexivity].
  apply wbind_done in H as (r1 & v1 & H1 & H). unfold STATUS_CODE_AUTHENTICATION_SUCCEEDED in H.
  destruct (r1 =? 235) eqn:E; cbn [negb] in H; apply wret_done in H as [? ->];
    (apply xauth_core in H1; [assumption|lia]).
Qed.
Lemma xupgrade_core : forall v r v', 0 <= r -> upgradeToSecureConnectionW v = (Done r, v') ->
  core (v_c v') = core (v_c v).
Proof.
  intros v r v' L H. unfold upgradeToSecureConnectionW in H.
  apply wbind_done in H as (u & v1 & H1 & H). apply wlogc_core in H1 as [H1 _].
  apply xraw3_reply in H as [H _];
    try (unfold SOCKET_INIT_CLIENT_SEND_STARTTLS_ERROR, SOCKET_INIT_CLIENT_SEND_STARTTLS_TIMEOUT; lia).
  congruence.
Qed.
Lemma xgreeting_core : forall v r v', base checkServerGreetings v = (Done r, v') -> core (v_c v') = core (v_c v).
Proof. intros v r v' H. apply base_done in H as (s & H & ->). apply greeting_core in H. exact H. Qed.
Lemma xgreeting_tls_core : forall v r v', base checkServerGreetingsTLS v = (Done r, v') -> core (v_c v') = core (v_c v).
Proof. intros v r v' H. apply base_done in H as (s & H & ->). apply greeting_tls_core in H. exact H. Qed.

(** ** A negotiated session *)

Lemma xtls_done : forall v v', startTLSNegotiationW v = (Done 0, v') ->
  core_t (v_c v') = core_t (v_c v) /\ c_ctx (v_c v') = Some (e_next (v_e v)) /\
  c_bio (v_c v') = Some (mkBio (S (e_next (v_e v))) (c_sock (v_c v))) /\
  accepted (c_selfsigned (v_c v)) (S (e_next (v_e v))) (socks (v_t v')) /\
  In (WOpenStore None) (v_t v').
Proof.
  intros v v' H. unfold startTLSNegotiationW in H.
  apply wbind_done in H as (u & v1 & H1 & H). apply wlogc_core in H1 as (H1 & HE1 & HT1 & _).
  apply wbind_done in H as (e & v1' & X & H). apply gete_done in X as [-> ->].
  destruct (e_tls (v_e v1)) as [|t l]; [apply base_done in H as (? & H & _); discriminate H|].
  apply wbind_done in H as (u2 & v2 & H2 & H). apply base_done in H2 as (s2 & H2 & ->). inversion H2; subst. clear H2.
  destruct (t_ctx t); cbn [negb] in H.
  2:{ apply wbind_done in H as (? & ? & _ & H). apply wret_done in H as [H _]. discriminate H. }
  apply wbind_done in H as (i & v3 & H3 & H). apply base_done in H3 as (s3 & H3 & ->). inversion H3; subst. clear H3.
  apply wbind_done in H as (u4 & v4 & H4 & H). apply base_done in H4 as (s4 & H4 & ->). inversion H4; subst. clear H4.
  destruct (t_bio t); cbn [negb] in H.
  2:{ apply wbind_done in H as (? & ? & _ & H). apply wret_done in H as [H _]. discriminate H. }
  apply wbind_done in H as (i6 & v6 & H6 & H). apply base_done in H6 as (s6 & H6 & ->). inversion H6; subst. clear H6.
  apply wbind_done in H as (c & v6' & X & H). apply getc_done in X as [-> ->].
  apply wbind_done in H as (u7 & v7 & H7 & H). apply base_done in H7 as (s7 & H7 & ->). inversion H7; subst. clear H7.
  unfold after in H. cbn [bare v_c v_e v_on v_w v_t s_c s_e s_t map] in H. rewrite !app_nil_r in H.
  match type of H with match ?x with _ => _ end _ = _ => destruct x; [|apply base_done in H as (? & H & _); discriminate H] end.
  match type of H with (if ?x then _ else _) _ = _ => destruct x; [apply base_done in H as (? & H & _); discriminate H|] end.
  apply wbind_done in H as (sr & v8 & H8 & H). assert (S8 := silent_done _ _ _ _ (silent_next _ _ _) H8).
  assert (T8 : v_t v8 = (v_t v1 ++ [WSock (EvCtxNew (e_next (v_e v1)))]) ++ [WSock (EvBioNew (S (e_next (v_e v1))) (c_sock (v_c v1)))]).
  { unfold next in H8. destruct (x_store _); inversion H8; subst; reflexivity. }
  destruct S8 as (C8 & E8 & _). cbn [v_c v_e] in C8, E8. clear H8.
  apply wbind_done in H as (u9 & v9 & H9 & H). inversion H9; subst v9. clear H9.
  destruct sr as [er|]; [apply wbind_done in H as (? & ? & _ & H); apply wret_done in H as [H _]; discriminate H|].
  destruct (t_connect t); cbn [negb] in H.
  2:{ apply wbind_done in H as (? & ? & _ & H). apply wbind_done in H as (? & ? & _ & H).
      apply wbind_done in H as (? & ? & _ & H). apply wret_done in H as [H _]. discriminate H. }
  apply wbind_done in H as (u10 & v10 & H10 & H). apply waddLog_core in H10 as (C10 & E10 & T10 & _).
  cbn [v_c v_e v_t] in C10, E10, T10.
  apply wbind_done in H as (u11 & v11 & H11 & H). apply wemit_done in H11.
  destruct (t_handshake t); cbn [negb] in H.
  2:{ apply wbind_done in H as (? & ? & _ & H). apply wbind_done in H as (? & ? & _ & H).
      apply wret_done in H as [H _]. discriminate H. }
  apply wbind_done in H as (u12 & v12 & H12 & H). apply waddLog_core in H12 as (C12 & E12 & T12 & _).
  apply wbind_done in H as (u13 & v13 & H13 & H). apply wemit_done in H13.
  destruct (t_cert t); cbn [negb] in H.
  2:{ apply wbind_done in H as (? & ? & _ & H). apply wret_done in H as [H _]. discriminate H. }
  apply wbind_done in H as (u14 & v14 & H14 & H). apply wemit_done in H14.
  apply wbind_done in H as (c & v14' & X & H). apply getc_done in X as [-> ->].
  subst v14 v13 v11. cbn [v_c v_e v_on v_w v_t] in *.
  assert (C : core (v_c v12) = core (set_bio (Some {| bio_id := S (e_next (v_e v1)); bio_fd := c_sock (v_c v1) |})
                 (set_ctx (Some (e_next (v_e v1))) (v_c v1)))) by congruence.
  clear C8 C10 C12. rewrite HE1 in *.
  assert (Fin : core (v_c v') = core (v_c v12) ->
    (exists tl, v_t v' = ((v_t v12 ++ [WSock (EvCert (S (e_next (v_e v))) true)]) ++
        [WSock (EvVerify (S (e_next (v_e v))) (t_verify t) (t_host t))]) ++ tl) ->
    t_verify t = 0 \/ (t_verify t = 18 /\ c_selfsigned (v_c v) = true) ->
    core_t (v_c v') = core_t (v_c v) /\ c_ctx (v_c v') = Some (e_next (v_e v)) /\
    c_bio (v_c v') = Some (mkBio (S (e_next (v_e v))) (c_sock (v_c v))) /\
    accepted (c_selfsigned (v_c v)) (S (e_next (v_e v))) (socks (v_t v')) /\ In (WOpenStore None) (v_t v')).
  { intros C' [tl T] V. rewrite C in C'. core_facts C'. core_facts H1. rewrite CFctx, CFbio.
    assert (D : c_bio (set_bio (Some {| bio_id := S (e_next (v_e v)); bio_fd := c_sock (v_c v1) |}) (set_ctx (Some (e_next (v_e v))) (v_c v1)))
      = Some (mkBio (S (e_next (v_e v))) (c_sock (v_c v1)))) by reflexivity.
    split; [|split; [reflexivity|split; [|split]]].
    - apply core_core_t in C'. apply core_core_t in H1. rewrite C', <- H1. reflexivity.
    - rewrite D, CFsock0. reflexivity.
    - rewrite T, T12, T10. rewrite !socks_app. cbn [socks flat_map app].
      split; [|split; [|do 2 eexists; split; [|exact V]]];
        repeat (rewrite in_app_iff; simpl); tauto.
    - rewrite T, T12, T10. repeat (rewrite in_app_iff; simpl); tauto. }
  core_facts C. core_facts H1.
  destruct (_ && _) eqn:SS.
  - apply wbind_done in H as (u15 & v15 & H15 & H). apply waddLog_core in H15 as (C15 & E15 & T15 & _).
    apply wbind_done in H as (u16 & v16 & H16 & H). apply wlogc_core in H16 as (C16 & E16 & T16 & _).
    apply wbind_done in H as (u17 & v17 & H17 & H). inversion H17; subst v17. clear H17.
    apply wret_done in H as [_ ->]. cbn [v_c v_t] in *. apply Fin; [exact (eq_trans C16 C15)| |].
    + eexists. rewrite T16, T15. reflexivity.
    + right. unfold X509_V_ERR_DEPTH_ZERO_SELF_SIGNED_CERT in SS. rewrite CFself in SS. simpl in SS. rewrite CFself0 in SS.
      apply andb_true_iff in SS as [A1 A2]. split; [lia|assumption].
  - destruct (t_verify t =? X509_V_OK) eqn:V; cbn [negb] in H.
    + apply wbind_done in H as (u16 & v16 & H16 & H). apply wlogc_core in H16 as (C16 & E16 & T16 & _).
      apply wbind_done in H as (u17 & v17 & H17 & H). inversion H17; subst v17. clear H17.
      apply wret_done in H as [_ ->]. cbn [v_c v_t] in *. apply Fin; [exact C16| |].
      * eexists. rewrite T16. reflexivity.
      * left. unfold X509_V_OK in V. lia.
    + apply wbind_done in H as (e' & v18 & _ & H). apply wbind_done in H as (? & ? & _ & H). apply wbind_done in H as (? & ? & _ & H).
      apply wret_done in H as [H _]. discriminate H.
Qed.

(** ** Opening the socket *)

Section Open.
Variable P : label -> Prop.
Hypothesis PQ : forall l, quiet l -> P l.
Hypothesis PS : P LSocket.
Hypothesis PN : P LNet.

Lemma xsocket : forall r l v, e_sock (v_e v) = r :: l ->
  wwalk P (base (upde (set_esock l);; emit (EvSocket r);;
    updc (set_sock (match r with SkFd n => Z.of_N n | SkErr _ => -1 end)))) v.
Proof.
  intros r l v H. apply ww_base. split; [|discriminate]. eapply steps_one; [|exact PS].
  apply (es_socket (bare v) r l H).
Qed.
Ltac o0 :=
  match goal with
  | |- wwalk _ (wbind (base getc) _) _ => apply ww_getc
  | |- wwalk _ (wbind (base gete) _) _ => apply ww_gete
  | |- wwalk _ (wbind _ _) _ => apply ww_bind; [|intros]
  | |- wwalk _ (wret _) _ => apply ww_ret
  | |- wwalk _ (base blocked) _ => apply xblocked
  | |- wwalk _ (base (logc _)) _ => apply qlogc; exact PQ
  | |- wwalk _ (base (setLastSocketErrNo _)) _ => apply qerrno; exact PQ
  | |- wwalk _ (addWSAMessage _) _ => apply xmessage; exact PQ
  | |- wwalk _ doWSACleanup _ => apply xwsacleanup; exact PQ
  | |- wwalk _ (base sys_connect) _ => apply ww_base; apply walk_connect; first [assumption|apply PQ; exact Logic.I]
  | |- wwalk _ (if ?b then _ else _) _ => destruct b eqn:?
  | _ => xs_silent
  end.
Ltac os := repeat o0.

Lemma xopen : forall v, wwalk P initializeSessionWinSock v.
Proof.
  intros v. unfold initializeSessionWinSock. apply ww_bind; [xs_silent|]. intros st v1 E1 _.
  apply ww_bind; [xs_silent|]. intros u v2 E2 _. destruct (negb (st =? 0)); [os|].
  apply ww_bind; [xs_silent|]. intros u3 v3 E3 _. apply ww_getc.
  apply ww_bind; [xs_silent|]. intros ga v4 E4 _.
  apply (silent_done _ _ _ _ (silent_next _ _ _)) in E4 as (C4 & _).
  apply ww_bind; [xs_silent|]. intros u5 v5 E5 _.
  apply (silent_done _ _ _ _ (silent_put (WAddr (c_server (v_c v3)) (c_port (v_c v3)) ga) Logic.I)) in E5 as (C5 & _).
  destruct (negb (ga =? 0)); [os|]. apply ww_gete.
  destruct (e_sock (v_e v5)) as [|[n|er] l] eqn:K; [apply xblocked| |].
  - apply ww_bind; [apply (xsocket (SkFd n)); exact K|]. intros u6 v6 E6 _.
    apply base_done in E6 as (s6 & E6 & ->). inversion E6; subst. clear E6.
    destruct (c_server (v_c v3)) as [name|] eqn:N.
    + apply ww_bind; [os|]. intros u7 v7 _ _. apply ww_bind; [os|]. intros r v8 _ _. destruct r; os.
    + apply xub. simpl. rewrite C5, C4. exact N.
  - apply ww_bind; [apply (xsocket (SkErr er)); exact K|]. intros. os.
Qed.
Hypothesis PNL : P LNewLog.
Lemma xinitialize : forall v, wwalk P initializeSessionW v.
Proof.
  intros v. unfold initializeSessionW. apply ww_bind; [|intros; apply xopen].
  apply ww_base. split; [|discriminate]. eapply steps_one; [apply es_newlog|assumption].
Qed.
End Open.

Definition open_label (l : label) : Prop :=
  match l with LSocket | LNet | LNewLog => True | _ => quiet l end.
Lemma quiet_open : forall l, quiet l -> open_label l.
Proof. intros []; simpl; tauto. Qed.
Lemma open_core : forall s s', steps open_label s s' -> core_s (s_c s') = core_s (s_c s).
Proof.
  intros s s' H. induction H as [|l s1 s2 s3 E Pl S IH]; [reflexivity|]. rewrite IH.
  destruct l; try (apply core_s_eq; eapply estep_core; [exact E|exact Pl]); try destruct Pl; inversion E; subst; reflexivity.
Qed.
Lemma xinitialize_core : forall v r v', initializeSessionW v = (Done r, v') -> core_s (v_c v') = core_s (v_c v).
Proof.
  intros v r v' H. destruct (xinitialize open_label quiet_open Logic.I Logic.I Logic.I v) as [S _].
  rewrite H in S. apply open_core in S. exact S.
Qed.

(** ** Establishing the connection *)

Section Establish.
Variable P : label -> Prop.
Hypothesis PB : forall l, ProofWalk.base l -> P l.
Hypothesis PNC : ~ P LConn.
Hypothesis PA : P LAuth.
Hypothesis PNL : P LNewLog.
Hypothesis PS : P LSocket.
Hypothesis PN : P LNet.

Lemma xinit : forall v, wwalk P initializeSessionW v.
Proof. intros. apply xinitialize; try assumption. intros l H. apply PB, quiet_base, H. Qed.
Lemma xgreetings : forall v, wwalk P (base checkServerGreetings) v.
Proof. intros. apply ww_base. apply wgreetings. assumption. Qed.
Lemma xgreetings_tls : forall v, wwalk P (base checkServerGreetingsTLS) v.
Proof. intros. apply ww_base. apply wgreetings_tls. assumption. Qed.
Lemma xdisconnected : forall v, c_conn (v_c v) = false -> quit_ok P (proj v).
Proof. intros v H E. cbn [proj s_c] in E. rewrite H, andb_false_r in E. discriminate E. Qed.

Definition plain_restW : W Z :=
  g <# base checkServerGreetings ;;
  if negb (g =? STATUS_CODE_SERVICE_READY) then wret g else
  i <# sendServerIdentificationW ;;
  if negb (i =? STATUS_CODE_REQUESTED_MAIL_ACTION_OK_OR_COMPLETED) then wret i else
  authenticate_if_neededW.

Lemma xplain_rest : forall v, c_kind (v_c v) = KPlain -> quit_ok P (proj v) -> P (LSend EHLO) ->
  (forall cr d, c_cred (v_c v) = Some cr -> In d (auth_lines cr) -> P (LSend (cstr d))) ->
  wwalk P plain_restW v.
Proof.
  intros s1 K Q1 HE HA. unfold plain_restW.
  apply ww_bind; [apply xgreetings|]. intros g s2 H2 S2. assert (Q2 := xquit P PNC _ _ S2 Q1).
  destruct (g =? _); cbn [negb]; [|apply ww_ret].
  apply xgreeting_core in H2. core_facts H2.
  apply ww_bind.
  { apply xident; auto. intros X. unfold raw_feedback in X. rewrite CFkind in X.
    rewrite K in X. discriminate X. }
  intros i s3 H3 S3. assert (Q3 := xquit P PNC _ _ S3 Q2).
  destruct (i =? _) eqn:I3; cbn [negb]; [|apply ww_ret].
  unfold STATUS_CODE_REQUESTED_MAIL_ACTION_OK_OR_COMPLETED in I3.
  apply xident_core in H3; [|lia]. apply core_a_fields in H3.
  apply xauth_if; auto. intros cr d Hcr Hd.
  assert (K3 : c_kind (v_c s3) = KPlain) by intuition congruence.
  assert (R : c_cred (v_c s1) = Some cr) by intuition congruence.
  split; intros X; [eauto|]. unfold raw_feedback_ptr, raw_feedback in X. rewrite K3, orb_true_r in X. discriminate X.
Qed.

Lemma xplain : forall v, c_kind (v_c v) = KPlain -> c_conn (v_c v) = false -> P (LSend EHLO) ->
  (forall cr d, c_cred (v_c v) = Some cr -> In d (auth_lines cr) -> P (LSend (cstr d))) ->
  wwalk P establishPlainW v.
Proof.
  intros s K Cn HE HA. unfold establishPlainW. assert (Q := xdisconnected s Cn).
  apply ww_bind; [apply xinit|]. intros r s1 H1 S1. assert (Q1 := xquit P PNC _ _ S1 Q).
  destruct (r =? 0); cbn [negb]; [|apply ww_ret].
  apply xinitialize_core in H1. apply core_s_fields in H1.
  apply xplain_rest; auto; [intuition congruence|]. intros cr d Hcr Hd. apply (HA cr d); intuition congruence.
Qed.

Hypothesis PT : P LTls.

Definition secure_tailW : W Z :=
  s <# getServerSecureIdentificationW ;;
  if negb (s =? STATUS_CODE_REQUESTED_MAIL_ACTION_OK_OR_COMPLETED) then wret s else
  authenticate_if_neededW.

Lemma xsecure_tail : forall v, c_kind (v_c v) <> KPlain -> c_bio (v_c v) <> None -> quit_ok P (proj v) -> P (LPuts EHLO) ->
  (forall cr d, c_cred (v_c v) = Some cr -> In d (auth_lines cr) ->
     if c_rawptr (v_c v) then P (LSend (cstr d)) else P (LPuts (cstr d))) ->
  wwalk P secure_tailW v.
Proof.
  intros s K Bn Q HE HA. unfold secure_tailW.
  assert (RF : forall c, c_kind c <> KPlain -> c_bio c <> None -> raw_feedback c = false).
  { intros c Kc Bc. unfold raw_feedback. destruct (c_kind c), (c_bio c); congruence. }
  apply ww_bind.
  { apply xsecure_ident; auto. intros X. rewrite RF in X; auto. discriminate X. }
  intros i s4 H4 S4. assert (Q4 := xquit P PNC _ _ S4 Q).
  destruct (i =? _) eqn:I3; cbn [negb]; [|apply ww_ret].
  unfold STATUS_CODE_REQUESTED_MAIL_ACTION_OK_OR_COMPLETED in I3.
  apply xsecure_ident_core in H4; [|lia]. apply core_a_fields in H4.
  apply xauth_if; auto. intros cr d Hcr Hd.
  assert (K4 : c_kind (v_c s4) <> KPlain) by intuition congruence.
  assert (B4 : c_bio (v_c s4) <> None) by intuition congruence.
  assert (R4 : c_rawptr (v_c s4) = c_rawptr (v_c s)) by intuition congruence.
  assert (R : c_cred (v_c s) = Some cr) by intuition congruence.
  specialize (HA cr d R Hd). rewrite <- R4 in HA.
  unfold route_ok, raw_feedback_ptr. rewrite RF by assumption.
  destruct (c_rawptr (v_c s4)); simpl; split; intros X; try discriminate X; assumption.
Qed.

Definition forced_tailW : W Z :=
  g <# base checkServerGreetingsTLS ;;
  if negb (g =? STATUS_CODE_SERVICE_READY) then wret g else secure_tailW.

Lemma xforced_tail : forall v, c_kind (v_c v) <> KPlain -> c_bio (v_c v) <> None -> quit_ok P (proj v) -> P (LPuts EHLO) ->
  (forall cr d, c_cred (v_c v) = Some cr -> In d (auth_lines cr) ->
     if c_rawptr (v_c v) then P (LSend (cstr d)) else P (LPuts (cstr d))) ->
  wwalk P forced_tailW v.
Proof.
  intros s K Bn Q HE HA. unfold forced_tailW.
  apply ww_bind; [apply xgreetings_tls|]. intros g s3 H3 S3. assert (Q3 := xquit P PNC _ _ S3 Q).
  destruct (g =? _); cbn [negb]; [|apply ww_ret].
  apply xgreeting_tls_core in H3. core_facts H3.
  apply xsecure_tail; auto; try congruence. intros cr d Hcr Hd. rewrite CFrawptr. apply (HA cr d); congruence.
Qed.

Definition forced_restW : W Z :=
  t <# startTLSNegotiationW ;;
  if negb (t =? 0) then wret t else forced_tailW.

Lemma xforced_rest : forall v, c_kind (v_c v) <> KPlain -> quit_ok P (proj v) -> P (LPuts EHLO) ->
  (forall cr d, c_cred (v_c v) = Some cr -> In d (auth_lines cr) ->
     if c_rawptr (v_c v) then P (LSend (cstr d)) else P (LPuts (cstr d))) ->
  wwalk P forced_restW v.
Proof.
  intros s1 K Q1 HE HA. unfold forced_restW.
  apply ww_bind; [apply xtls; auto|]. intros t s2 H2 S2. assert (Q2 := xquit P PNC _ _ S2 Q1).
  destruct (t =? 0) eqn:T; cbn [negb]; [|apply ww_ret].
  replace t with 0 in H2 by lia. apply xtls_done in H2 as (C2 & _ & B2 & _). apply core_t_fields in C2.
  assert (R2 : c_rawptr (v_c s2) = c_rawptr (v_c s1)) by intuition congruence.
  apply xforced_tail; auto; try (intuition congruence).
  intros cr d Hcr Hd. rewrite R2. apply (HA cr d); intuition congruence.
Qed.

Lemma xforced : forall v, c_kind (v_c v) = KForced -> c_conn (v_c v) = false -> P (LPuts EHLO) ->
  (forall cr d, c_cred (v_c v) = Some cr -> In d (auth_lines cr) ->
     if c_rawptr (v_c v) then P (LSend (cstr d)) else P (LPuts (cstr d))) ->
  wwalk P establishForcedW v.
Proof.
  intros s K Cn HE HA. unfold establishForcedW. assert (Q := xdisconnected s Cn).
  apply ww_bind; [apply xinit|]. intros r s1 H1 S1. assert (Q1 := xquit P PNC _ _ S1 Q).
  destruct (r =? 0); cbn [negb]; [|apply ww_ret].
  apply xinitialize_core in H1. apply core_s_fields in H1.
  assert (R2 : c_rawptr (v_c s1) = c_rawptr (v_c s)) by intuition congruence.
  apply xforced_rest; auto; try (intuition congruence).
  intros cr d Hcr Hd. rewrite R2. apply (HA cr d); intuition congruence.
Qed.

Hypothesis PK : P LKeep.

Lemma xupgrade : forall v, c_kind (v_c v) = KOpp -> P LUpgrade -> quit_ok P (proj v) ->
  wwalk P upgradeToSecureConnectionW v.
Proof.
  intros s K H Q. unfold upgradeToSecureConnectionW. apply xlog_then; [assumption|assumption|assumption|].
  intros s1 C1 Q1. core_facts C1. unfold sendRaw3W. apply ww_bind.
  - unfold sendRaw2W. destruct (_ <? _)%N; [apply ww_bind; [xs_silent|intros; apply ww_ret]|].
    apply ww_bind; [apply ww_base; apply walk_send_up; [by_base|exact H|cbn [bare s_c]; congruence]|].
    intros r s2 _ S2. assert (Q2 := xquit P PNC _ _ S2 Q1).
    destruct r; try apply ww_ret; try apply xkilled.
    apply ww_bind; [apply xerrno; assumption|]. intros u s3 _ S3. assert (Q3 := xquit P PNC _ _ S3 Q2).
    apply ww_bind; [apply xcleanup; assumption|]. intros. apply ww_ret.
  - intros r s2 _ S2. assert (Q2 := xquit P PNC _ _ S2 Q1). destruct (negb (r =? 0)); [apply ww_ret|].
    apply ww_bind; [apply xraw_reply; intros l Hl; apply PB, quiet_base, Hl|]. intros c s3 _ S3. assert (Q3 := xquit P PNC _ _ S3 Q2).
    destruct (negb (c =? -1)); [apply ww_ret|].
    apply ww_bind; [apply xcleanup; assumption|]. intros. apply ww_ret.
Qed.

Definition opp_restW : W Z :=
  g <# base checkServerGreetings ;;
  if negb (g =? STATUS_CODE_SERVICE_READY) then wret g else
  i <# sendServerIdentificationW ;;
  if negb (i =? STATUS_CODE_REQUESTED_MAIL_ACTION_OK_OR_COMPLETED) then wret i else
  c <# base getc ;;
  tls <# base (lift (isStartTLSSupported (c_resp c))) ;;
  if (tls : bool) then
    base (logc (B "Info: STARTTLS is available by the server, the communication will be encrypted.")) ;;#
    u <# upgradeToSecureConnectionW ;;
    if negb (u =? STATUS_CODE_SERVICE_READY) then wret u else
    t <# startTLSNegotiationW ;;
    if negb (t =? 0) then wret t else secure_tailW
  else
    base (logc (B "Info: STARTTLS is not an available option by the server, the communication will then remain unencrypted.")) ;;#
    base (updc (set_keep true)) ;;#
    wret 0.

Lemma xstarttls : forall v, wwalk P (base (lift (isStartTLSSupported (c_resp (v_c v))))) v.
Proof.
  intros v. apply ww_base. apply walk_lift. intros u Hu. destruct (starttls_undef _ _ Hu) as [-> [r' Hr]].
  exists r'. split; [assumption|]. rewrite Hr in Hu. exact Hu.
Qed.

Lemma xopp_rest : forall v, c_kind (v_c v) = KOpp -> quit_ok P (proj v) ->
  P (LSend EHLO) -> P (LPuts EHLO) -> P LUpgrade ->
  (forall cr d, c_cred (v_c v) = Some cr -> In d (auth_lines cr) ->
     if c_rawptr (v_c v) then P (LSend (cstr d)) else P (LPuts (cstr d))) ->
  wwalk P opp_restW v.
Proof.
  intros s1 K Q1 HE HE' HS HA. unfold opp_restW.
  apply ww_bind; [apply xgreetings|]. intros g s2 H2 S2. assert (Q2 := xquit P PNC _ _ S2 Q1).
  destruct (g =? _); cbn [negb]; [|apply ww_ret].
  apply xgreeting_core in H2. core_facts H2.
  apply ww_bind; [apply xident; auto|].
  intros i s3 H3 S3. assert (Q3 := xquit P PNC _ _ S3 Q2).
  destruct (i =? _) eqn:I3; cbn [negb]; [|apply ww_ret].
  unfold STATUS_CODE_REQUESTED_MAIL_ACTION_OK_OR_COMPLETED in I3.
  apply xident_core in H3; [|lia]. apply core_a_fields in H3.
  assert (K3 : c_kind (v_c s3) = KOpp) by intuition congruence.
  apply ww_getc. apply ww_bind; [apply xstarttls|].
  intros tls s3' H3' S3'. assert (Q3' := xquit P PNC _ _ S3' Q3).
  assert (X3 : v_c s3' = v_c s3).
  { apply base_done in H3' as (x & H3' & ->). unfold lift in H3'. destruct (isStartTLSSupported _); inversion H3'; subst; reflexivity. }
  clear H3'. destruct tls.
  - apply xlog_then; [assumption|assumption|assumption|]. intros s4 C4 Q4. rewrite X3 in C4. core_facts C4.
    assert (K4 : c_kind (v_c s4) = KOpp) by congruence.
    apply ww_bind; [apply xupgrade; assumption|]. intros u s5 H5 S5. assert (Q5 := xquit P PNC _ _ S5 Q4).
    destruct (u =? _) eqn:U; cbn [negb]; [|apply ww_ret]. unfold STATUS_CODE_SERVICE_READY in U.
    apply xupgrade_core in H5; [|lia]. core_facts H5.
    apply ww_bind; [apply xtls; auto|]. intros t s6 H6 S6. assert (Q6 := xquit P PNC _ _ S6 Q5).
    destruct (t =? 0) eqn:T; cbn [negb]; [|apply ww_ret].
    replace t with 0 in H6 by lia. apply xtls_done in H6 as (C6 & _ & B6 & _). apply core_t_fields in C6.
    assert (R6 : c_rawptr (v_c s6) = c_rawptr (v_c s1)) by intuition congruence.
    apply xsecure_tail; auto; try (intuition congruence).
    intros cr d Hcr Hd. rewrite R6. apply (HA cr d); intuition congruence.
  - apply xlog_then; [assumption|assumption|assumption|]. intros s4 C4 Q4.
    apply ww_bind; [apply ww_base; eapply walk_updc; [apply es_keep|assumption]|]. intros. apply ww_ret.
Qed.

Lemma xopp : forall v, c_kind (v_c v) = KOpp -> c_conn (v_c v) = false ->
  P (LSend EHLO) -> P (LPuts EHLO) -> P LUpgrade ->
  (forall cr d, c_cred (v_c v) = Some cr -> In d (auth_lines cr) ->
     if c_rawptr (v_c v) then P (LSend (cstr d)) else P (LPuts (cstr d))) ->
  wwalk P establishOppW v.
Proof.
  intros s K Cn HE HE' HS HA. unfold establishOppW. assert (Q := xdisconnected s Cn).
  apply ww_bind; [apply xinit|]. intros r s1 H1 S1. assert (Q1 := xquit P PNC _ _ S1 Q).
  destruct (r =? 0); cbn [negb]; [|apply ww_ret].
  apply xinitialize_core in H1. apply core_s_fields in H1.
  assert (R2 : c_rawptr (v_c s1) = c_rawptr (v_c s)) by intuition congruence.
  apply xopp_rest; auto; try (intuition congruence).
  intros cr d Hcr Hd. rewrite R2. apply (HA cr d); intuition congruence.
Qed.

Lemma xestablish : forall v, c_conn (v_c v) = false ->
  P (LSend EHLO) -> P (LPuts EHLO) -> (c_kind (v_c v) = KOpp -> P LUpgrade) ->
  (forall cr d, c_cred (v_c v) = Some cr -> In d (auth_lines cr) ->
     (c_kind (v_c v) = KPlain \/ c_rawptr (v_c v) = true -> P (LSend (cstr d))) /\
     (c_kind (v_c v) <> KPlain -> c_rawptr (v_c v) = false -> P (LPuts (cstr d)))) ->
  wwalk P establishW v.
Proof.
  intros s Cn HE HE' HS HA. unfold establishW. apply ww_getc.
  destruct (c_kind (v_c s)) eqn:K; [apply xplain|apply xopp|apply xforced]; auto.
  - intros cr d Hc Hd. apply (HA cr d Hc Hd). auto.
  - intros cr d Hc Hd. destruct (HA cr d Hc Hd) as [A1 A2].
    destruct (c_rawptr (v_c s)); [auto|apply A2; [discriminate|reflexivity]].
  - intros cr d Hc Hd. destruct (HA cr d Hc Hd) as [A1 A2].
    destruct (c_rawptr (v_c s)); [auto|apply A2; [discriminate|reflexivity]].
Qed.
End Establish.

(** ** The mail transaction *)

Section Transaction.
Variable P : label -> Prop.
Hypothesis PB : forall l, ProofWalk.base l -> P l.
Hypothesis PNC : ~ P LConn.

Lemma xfb : forall d err tmo v, may_write P (cstr d) -> quit_ok P (proj v) -> wwalk P (sendFeedbackPtrW d err tmo) v.
Proof. intros d err tmo s [H1 H2] Q. apply xfeedback_ptr; auto. Qed.
Lemma xcmd : forall d err v, may_write P (cstr d) -> quit_ok P (proj v) -> wwalk P (sendCommandPtrW cleanupW d err) v.
Proof. intros d err s [H1 H2] Q. apply xcommand; auto. Qed.
Lemma xlt : forall {A} (m : W A) item v, quit_ok P (proj v) ->
  (forall v1, quit_ok P (proj v1) -> wwalk P m v1) -> wwalk P (base (logc item) ;;# m) v.
Proof. intros A m item s Q H. apply xlog_then; auto. Qed.
Lemma xbind : forall {A C} (m : W A) (k : A -> W C) v, quit_ok P (proj v) -> wwalk P m v ->
  (forall a v1, quit_ok P (proj v1) -> wwalk P (k a) v1) -> wwalk P (wbind m k) v.
Proof.
  intros A C m k s Q H1 H2. apply ww_bind; [assumption|]. intros a s1 _ S. apply H2.
  eapply xquit; eauto.
Qed.

Lemma xmail_from : forall fmts last v, (forall d, In d fmts -> may_write P (cstr d)) -> quit_ok P (proj v) ->
  wwalk P (mail_from_loopW fmts last) v.
Proof.
  induction fmts as [|f r IH]; intros last s H Q; cbn [mail_from_loopW]; [apply ww_ret|].
  apply xlt; [assumption|]. intros s1 Q1. apply xbind; [assumption|apply xfb; [apply H; left; reflexivity|assumption]|].
  intros code s2 Q2. destruct (code =? 250); [apply ww_ret|]. destruct (negb _); [apply ww_ret|].
  apply IH; [|assumption]. intros d Hd. apply H. right. assumption.
Qed.
Lemma xrcpt : forall l result v, (forall a, In a l -> may_write P (cstr (rcpt_command a))) -> quit_ok P (proj v) ->
  wwalk P (addMailRecipientsW l result) v.
Proof.
  induction l as [|a r IH]; intros result s H Q; cbn [addMailRecipientsW]; [apply ww_ret|].
  apply xlt; [assumption|]. intros s1 Q1. apply xbind; [assumption|apply xfb; [apply H; left; reflexivity|assumption]|].
  intros code s2 Q2. apply IH; [|assumption]. intros d Hd. apply H. right. assumption.
Qed.
Lemma xrecipients : forall ls v,
  (forall l a, In (AArr l) ls -> In a l -> may_write P (cstr (rcpt_command a))) -> quit_ok P (proj v) ->
  wwalk P (recipients_loopW ls) v.
Proof.
  induction ls as [|[n|l] r IH]; intros s H Q; cbn [recipients_loopW]; [apply ww_ret| |].
  - apply IH; [|assumption]. intros l a Hl. apply H. right. assumption.
  - apply xbind; [assumption|apply xrcpt; [|assumption]|].
    + intros a Ha. apply (H l a); [left; reflexivity|assumption].
    + intros code s1 Q1. destruct (negb _); [apply ww_ret|]. apply IH; [|assumption].
      intros l' a Hl. apply H. right. assumption.
Qed.
Lemma xaddress_header : forall field a v,
  (forall l, a = AArr l -> l <> [] -> may_write P (cstr (header_line field (generateHeaderAddressValues l)))) ->
  (forall n, a = ANull (S n) -> P LNull) -> quit_ok P (proj v) -> wwalk P (address_headerW field a) v.
Proof.
  intros field a s H HN Q. destruct a as [[|n]|[|x l]]; cbn [address_headerW]; try apply ww_ret.
  - apply xub. simpl. eapply HN. reflexivity.
  - apply xbind; [assumption| |intros; apply ww_ret]. unfold addMailHeaderW. apply xlt; [assumption|].
    intros s1 Q1. apply xcmd; [|assumption]. apply H; [reflexivity|discriminate].
Qed.
Lemma xchunks : forall l err v, (forall d, In d l -> may_write P (cstr d)) -> quit_ok P (proj v) ->
  wwalk P (send_chunksW l err) v.
Proof.
  induction l as [|x r IH]; intros err s H Q; cbn [send_chunksW]; [apply ww_ret|].
  apply xbind; [assumption|apply xcmd; [apply H; left; reflexivity|assumption]|].
  intros code s1 Q1. destruct (negb _); [apply ww_ret|]. apply IH; [|assumption]. intros d Hd. apply H. right. assumption.
Qed.

Variable m : message.
Variable fs : filesystem.
Hypothesis Hw : forall d, tx_line fs m d -> may_write P (cstr d).
Hypothesis HN : forall n, m_to m = ANull (S n) \/ m_cc m = ANull (S n) \/ m_atts m = ANull (S n) -> P LNull.

Lemma xset_recipients : forall v, quit_ok P (proj v) -> wwalk P (setMailRecipientsW m) v.
Proof.
  intros s Q. unfold setMailRecipientsW. apply xbind; [assumption|apply xmail_from; [|assumption]|].
  - intros d Hd. apply Hw. apply tl_from. assumption.
  - intros code s1 Q1. destruct (negb _); [apply ww_ret|]. apply xrecipients; [|assumption].
    intros l a Hl Ha. apply Hw. eapply tl_rcpt; eauto.
Qed.
Lemma xset_headers : forall v, quit_ok P (proj v) -> wwalk P (setMailHeadersW m) v.
Proof.
  intros s Q. unfold setMailHeadersW. apply xlt; [assumption|]. intros s1 Q1.
  apply xbind; [assumption|apply xfb; [apply Hw, tl_data|assumption]|]. intros d s2 Q2.
  destruct (negb _); [apply ww_ret|].
  apply xbind; [assumption| |].
  { unfold addMailHeaderW. apply xlt; [assumption|]. intros. apply xcmd; [apply Hw, tl_hfrom|assumption]. }
  intros f s3 Q3. destruct (negb _); [apply ww_ret|].
  apply xbind; [assumption| |].
  { apply xaddress_header; [intros; apply Hw; apply tl_hto; assumption|intros; eapply HN; eauto|assumption]. }
  intros _ s4 Q4. apply xbind; [assumption| |].
  { apply xaddress_header; [intros; apply Hw; apply tl_hcc; assumption|intros; eapply HN; eauto|assumption]. }
  intros _ s5 Q5. apply xlt; [assumption|]. intros s6 Q6.
  apply xbind; [assumption|apply xcmd; [apply Hw, tl_hsubject|assumption]|]. intros x s7 Q7.
  destruct (negb _); [apply ww_ret|]. apply xlt; [assumption|]. intros s8 Q8.
  apply xbind; [assumption|apply xcmd; [apply Hw, tl_htype|assumption]|]. intros y s9 Q9.
  destruct (negb _); apply ww_ret.
Qed.
Lemma xsend_quit : forall v, quit_ok P (proj v) -> wwalk P (sendQuitW cleanupW) v.
Proof.
  intros s Q. unfold sendQuitW. apply xlt; [assumption|]. intros s1 Q1.
  apply (xcmd (B "QUIT" ++ CRLF)); [|assumption]. exact (Hw _ (tl_quit fs m)).
Qed.
Lemma xset_body : forall v, e_fs (v_e v) = fs -> quit_ok P (proj v) -> wwalk P (setMailBodyW m) v.
Proof.
  intros s F Q. unfold setMailBodyW. apply ww_bind; [apply xlogc; assumption|]. intros u s1 H1 S1.
  assert (Q1 := xquit P PNC _ _ S1 Q). assert (F1 := steps_fs _ _ _ S1). cbn [proj s_e] in F1.
  apply ww_gete. apply ww_bind.
  { apply ww_base. apply walk_lift. intros ub Hb. unfold body_real in Hb.
    destruct (m_atts m) as [[|n]|[|]] eqn:A; try discriminate Hb. inversion Hb; subst. simpl. eapply HN. eauto. }
  intros body s1' Hb Sb. assert (Q1' := xquit P PNC _ _ Sb Q1). apply base_done in Hb as (x & Hb & _).
  unfold lift in Hb. injection Hb as Hb _. rewrite F1, F in Hb.
  apply xbind; [assumption|apply xchunks; [|assumption]|].
  { intros d Hd. apply Hw. eapply tl_chunk; eauto. }
  intros r s2 Q2. destruct (negb _); [apply ww_ret|]. apply xlt; [assumption|]. intros s3 Q3.
  apply xbind; [assumption|apply xfb; [apply Hw, tl_end|assumption]|]. intros d s4 Q4.
  destruct (negb _); [apply ww_ret|]. apply ww_getc. destruct (c_batch (v_c s4)); [apply ww_ret|].
  apply xbind; [assumption|apply xsend_quit; assumption|]. intros q s5 Q5. destruct (negb _); apply ww_ret.
Qed.
Lemma xtransaction : forall v, e_fs (v_e v) = fs -> wwalk P (mail_transactionW m) v.
Proof.
  intros s F. assert (Q : quit_ok P (proj s)). { intros _. exact (Hw _ (tl_quit fs m)). }
  unfold mail_transactionW. apply ww_bind; [apply xset_recipients; assumption|].
  intros r s1 _ S1. assert (Q1 := xquit P PNC _ _ S1 Q). assert (F1 := steps_fs _ _ _ S1). cbn [proj s_e] in F1.
  destruct (negb _); [apply ww_ret|].
  apply ww_bind; [apply xset_headers; assumption|].
  intros h s2 _ S2. assert (Q2 := xquit P PNC _ _ S2 Q1). assert (F2 := steps_fs _ _ _ S2). cbn [proj s_e] in F2.
  destruct (negb _); [apply ww_ret|].
  apply ww_bind; [apply xset_body; [congruence|assumption]|].
  intros b s3 _ S3. assert (Q3 := xquit P PNC _ _ S3 Q2).
  destruct (negb _); [apply ww_ret|]. apply ww_getc.
  apply xbind; [assumption| |intros; apply ww_ret].
  destruct (c_batch (v_c s3)); [apply ww_ret|]. apply xcleanup; assumption.
Qed.
End Transaction.

(** ** Every run *)

Lemma any_establishW : forall m v, c_conn (v_c v) = false -> wwalk (any_but_conn m) establishW v.
Proof.
  intros m v Cn. apply xestablish; try exact Logic.I; try assumption.
  - apply any_base.
  - intros H. exact H.
  - intros. exact Logic.I.
  - intros. split; intros; exact Logic.I.
Qed.
Lemma any_transactionW : forall m v, wwalk (any_but_conn m) (mail_transactionW m) v.
Proof.
  intros m v. apply xtransaction with (fs := e_fs (v_e v)); try reflexivity.
  - apply any_base.
  - intros H. exact H.
  - intros d _. apply any_write.
  - intros n H. exists n. exact H.
Qed.
Lemma any_cleanupW : forall m v, wwalk (any_but_conn m) cleanupW v.
Proof. intros m v. apply xcleanup; [apply any_base|]. intros _. apply any_write. Qed.

Lemma sendMailW_walk : forall m v, wwalk (any_label m) (sendMailW m) v.
Proof.
  intros m v. unfold sendMailW. apply ww_getc. apply ww_bind.
  - destruct (c_conn (v_c v)) eqn:Cn; [apply ww_ret|]. eapply ww_mono; [apply any_establishW; assumption|apply any_weak].
  - intros r v1 _ _. destruct (negb _); [apply ww_ret|].
    apply ww_bind; [apply ww_base; eapply walk_updc; [apply es_conn|exact Logic.I]|].
    intros u v2 _ _. eapply ww_mono; [apply any_transactionW|apply any_weak].
Qed.
