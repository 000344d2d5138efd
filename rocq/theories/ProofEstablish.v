(** The paths of the establishConnectionWithServer functions and of the mail
    transaction. *)

From Coq Require Import Ascii String List NArith ZArith Bool Lia ZifyBool ZifyNat ZifyN.
From Verif Require Import Base Lib ModelUtil ModelBase64 ModelAddress ModelAttachment
  ModelErrors ModelReply ModelMessage ModelState ModelClient ProofText ProofSteps ProofWalk ProofPhases.
Import ListNotations.
Open Scope Z_scope.

Lemma core_a_fields : forall c d, core_a c = core_a d ->
  c_kind c = c_kind d /\ c_conn c = c_conn d /\ c_cred c = c_cred d /\ c_sock c = c_sock d /\
  c_rawptr c = c_rawptr d /\ c_bio c = c_bio d /\ c_batch c = c_batch d /\ c_keep c = c_keep d /\
  c_selfsigned c = c_selfsigned d /\ c_ctx c = c_ctx d /\ c_timeout c = c_timeout d.
Proof. intros c d H. unfold core_a, core in H. inversion H. repeat split; assumption. Qed.
Lemma core_s_fields : forall c d, core_s c = core_s d ->
  c_kind c = c_kind d /\ c_conn c = c_conn d /\ c_cred c = c_cred d /\
  c_rawptr c = c_rawptr d /\ c_bio c = c_bio d /\ c_batch c = c_batch d /\ c_keep c = c_keep d /\
  c_selfsigned c = c_selfsigned d /\ c_ctx c = c_ctx d /\ c_timeout c = c_timeout d.
Proof. intros c d H. unfold core_s, core in H. inversion H. repeat split; assumption. Qed.
Lemma core_t_fields : forall c d, core_t c = core_t d ->
  c_kind c = c_kind d /\ c_conn c = c_conn d /\ c_cred c = c_cred d /\ c_sock c = c_sock d /\
  c_rawptr c = c_rawptr d /\ c_batch c = c_batch d /\ c_keep c = c_keep d /\
  c_selfsigned c = c_selfsigned d /\ c_timeout c = c_timeout d.
Proof. intros c d H. unfold core_t, core in H. inversion H. repeat split; assumption. Qed.

Lemma trim_undef : forall s u, trim s = Undef u -> u = UB_IsspaceNegative.
Proof.
  intros s u H. unfold trim in H. destruct (trimLeft_cases s) as [[t T]|[T _]]; rewrite T in H; simpl in H.
  - unfold trimRight in H. destruct (trimLeft_cases (rev t)) as [[t' T']|[T' _]]; rewrite T' in H; simpl in H;
      [discriminate H|inversion H; reflexivity].
  - inversion H. reflexivity.
Qed.
Lemma starttls_undef : forall p u, isStartTLSSupported p = Undef u ->
  u = UB_IsspaceNegative /\ exists r, p = Some r.
Proof.
  intros p u H. unfold isStartTLSSupported in H. destruct p as [s0|]; [|discriminate H]. split; [|eauto].
  destruct (cstr s0) as [|x r]; [discriminate H|].
  destruct (trim (x :: r)) eqn:T; cbn [obind] in H; try discriminate H; [destruct a; discriminate H|].
  inversion H; subst. eapply trim_undef; eauto.
Qed.

Section Establish.
Variable P : label -> Prop.
Hypothesis PB : forall l, base l -> P l.
Hypothesis PNC : ~ P LConn.
Hypothesis PA : P LAuth.
Hypothesis PNL : P LNewLog.
Hypothesis PS : P LSocket.
Hypothesis PN : P LNet.

Lemma winitialize : forall s, walk P initializeSession s.
Proof. intros. apply walk_initialize; first [assumption|apply PB; exact I]. Qed.
Lemma wgreetings : forall s, walk P checkServerGreetings s.
Proof. intros. apply walk_greetings; apply PB; exact I. Qed.
Lemma wgreetings_tls : forall s, walk P checkServerGreetingsTLS s.
Proof. intros. apply walk_greetings_tls; apply PB; exact I. Qed.

Lemma disconnected_quit : forall s, c_conn (s_c s) = false -> quit_ok P s.
Proof. intros s H E. rewrite H, andb_false_r in E. discriminate E. Qed.

(** The plain client once the socket is connected. *)
Definition plain_rest : M Z :=
  g <- checkServerGreetings;;
  if negb (g =? STATUS_CODE_SERVICE_READY) then ret g else
  i <- sendServerIdentification;;
  if negb (i =? STATUS_CODE_REQUESTED_MAIL_ACTION_OK_OR_COMPLETED) then ret i else
  authenticate_if_needed.

Lemma wplain_rest : forall s1, c_kind (s_c s1) = KPlain -> quit_ok P s1 -> P (LSend EHLO) ->
  (forall cr d, c_cred (s_c s1) = Some cr -> In d (auth_lines cr) -> P (LSend (cstr d))) ->
  walk P plain_rest s1.
Proof.
  intros s1 K Q1 HE HA. unfold plain_rest.
  apply walk_bind; [apply wgreetings|]. intros g s2 H2 S2. assert (Q2 := steps_quit P PNC _ _ S2 Q1).
  destruct (g =? _); cbn [negb]; [|apply walk_ret].
  apply greeting_core in H2. core_facts H2.
  apply walk_bind.
  { apply wident; auto. intros X. unfold raw_feedback in X. rewrite CFkind in X. 
    rewrite K in X. discriminate X. }
  intros i s3 H3 S3. assert (Q3 := steps_quit P PNC _ _ S3 Q2).
  destruct (i =? _) eqn:I3; cbn [negb]; [|apply walk_ret].
  unfold STATUS_CODE_REQUESTED_MAIL_ACTION_OK_OR_COMPLETED in I3.
  apply ident_core in H3; [|lia]. apply core_a_fields in H3.
  apply wauth_if; auto. intros cr d Hcr Hd.
  assert (K3 : c_kind (s_c s3) = KPlain) by intuition congruence.
  assert (R : c_cred (s_c s1) = Some cr) by intuition congruence.
  split; intros X; [eauto|]. unfold raw_feedback_ptr, raw_feedback in X. rewrite K3, orb_true_r in X. discriminate X.
Qed.

Lemma wplain : forall s, c_kind (s_c s) = KPlain -> c_conn (s_c s) = false -> P (LSend EHLO) ->
  (forall cr d, c_cred (s_c s) = Some cr -> In d (auth_lines cr) -> P (LSend (cstr d))) ->
  walk P establishPlain s.
Proof.
  intros s K Cn HE HA. unfold establishPlain. assert (Q := disconnected_quit s Cn).
  apply walk_bind; [apply winitialize|]. intros r s1 H1 S1. assert (Q1 := steps_quit P PNC _ _ S1 Q).
  destruct (r =? 0); cbn [negb]; [|apply walk_ret].
  apply initialize_core in H1 as [C1 _]. apply core_s_fields in C1.
  apply wplain_rest; auto; [intuition congruence|]. intros cr d Hcr Hd. apply (HA cr d); intuition congruence.
Qed.

Hypothesis PT : P LTls.

(** Identification and authentication over TLS. *)
Definition secure_tail : M Z :=
  s <- getServerSecureIdentification;;
  if negb (s =? STATUS_CODE_REQUESTED_MAIL_ACTION_OK_OR_COMPLETED) then ret s else
  authenticate_if_needed.

Lemma wsecure_tail : forall s, c_kind (s_c s) <> KPlain -> c_bio (s_c s) <> None -> quit_ok P s -> P (LPuts EHLO) ->
  (forall cr d, c_cred (s_c s) = Some cr -> In d (auth_lines cr) ->
     if c_rawptr (s_c s) then P (LSend (cstr d)) else P (LPuts (cstr d))) ->
  walk P secure_tail s.
Proof.
  intros s K Bn Q HE HA. unfold secure_tail.
  assert (RF : forall c, c_kind c <> KPlain -> c_bio c <> None -> raw_feedback c = false).
  { intros c Kc Bc. unfold raw_feedback. destruct (c_kind c), (c_bio c); congruence. }
  apply walk_bind.
  { apply wsecure_ident; auto. intros X. rewrite RF in X; auto. discriminate X. }
  intros i s4 H4 S4. assert (Q4 := steps_quit P PNC _ _ S4 Q).
  destruct (i =? _) eqn:I3; cbn [negb]; [|apply walk_ret].
  unfold STATUS_CODE_REQUESTED_MAIL_ACTION_OK_OR_COMPLETED in I3.
  apply secure_ident_core in H4; [|lia]. apply core_a_fields in H4.
  apply wauth_if; auto. intros cr d Hcr Hd.
  assert (K4 : c_kind (s_c s4) <> KPlain) by intuition congruence.
  assert (B4 : c_bio (s_c s4) <> None) by intuition congruence.
  assert (R4 : c_rawptr (s_c s4) = c_rawptr (s_c s)) by intuition congruence.
  assert (R : c_cred (s_c s) = Some cr) by intuition congruence.
  specialize (HA cr d R Hd). rewrite <- R4 in HA.
  unfold route_ok, raw_feedback_ptr. rewrite RF by assumption.
  destruct (c_rawptr (s_c s4)); simpl; split; intros X; try discriminate X; assumption.
Qed.

(** The forced client once the TLS session is ready. *)
Definition forced_tail : M Z :=
  g <- checkServerGreetingsTLS;;
  if negb (g =? STATUS_CODE_SERVICE_READY) then ret g else secure_tail.

Lemma wforced_tail : forall s, c_kind (s_c s) <> KPlain -> c_bio (s_c s) <> None -> quit_ok P s -> P (LPuts EHLO) ->
  (forall cr d, c_cred (s_c s) = Some cr -> In d (auth_lines cr) ->
     if c_rawptr (s_c s) then P (LSend (cstr d)) else P (LPuts (cstr d))) ->
  walk P forced_tail s.
Proof.
  intros s K Bn Q HE HA. unfold forced_tail.
  apply walk_bind; [apply wgreetings_tls|]. intros g s3 H3 S3. assert (Q3 := steps_quit P PNC _ _ S3 Q).
  destruct (g =? _); cbn [negb]; [|apply walk_ret].
  apply greeting_tls_core in H3. core_facts H3.
  apply wsecure_tail; auto; try congruence. intros cr d Hcr Hd. rewrite CFrawptr. apply (HA cr d); congruence.
Qed.

Definition forced_rest : M Z :=
  t <- startTLSNegotiation;;
  if negb (t =? 0) then ret t else forced_tail.

Lemma wforced_rest : forall s1, c_kind (s_c s1) <> KPlain -> quit_ok P s1 -> P (LPuts EHLO) ->
  (forall cr d, c_cred (s_c s1) = Some cr -> In d (auth_lines cr) ->
     if c_rawptr (s_c s1) then P (LSend (cstr d)) else P (LPuts (cstr d))) ->
  walk P forced_rest s1.
Proof.
  intros s1 K Q1 HE HA. unfold forced_rest.
  apply walk_bind; [apply wtls; auto|]. intros t s2 H2 S2. assert (Q2 := steps_quit P PNC _ _ S2 Q1).
  destruct (t =? 0) eqn:T; cbn [negb]; [|apply walk_ret].
  replace t with 0 in H2 by lia. apply tls_done in H2 as (C2 & _ & B2 & _). apply core_t_fields in C2.
  assert (R2 : c_rawptr (s_c s2) = c_rawptr (s_c s1)) by intuition congruence.
  apply wforced_tail; auto; try (intuition congruence).
  intros cr d Hcr Hd. rewrite R2. apply (HA cr d); intuition congruence.
Qed.

Lemma wforced : forall s, c_kind (s_c s) = KForced -> c_conn (s_c s) = false -> P (LPuts EHLO) ->
  (forall cr d, c_cred (s_c s) = Some cr -> In d (auth_lines cr) ->
     if c_rawptr (s_c s) then P (LSend (cstr d)) else P (LPuts (cstr d))) ->
  walk P establishForced s.
Proof.
  intros s K Cn HE HA. unfold establishForced. assert (Q := disconnected_quit s Cn).
  apply walk_bind; [apply winitialize|]. intros r s1 H1 S1. assert (Q1 := steps_quit P PNC _ _ S1 Q).
  destruct (r =? 0); cbn [negb]; [|apply walk_ret].
  apply initialize_core in H1 as [C1 _]. apply core_s_fields in C1.
  assert (R2 : c_rawptr (s_c s1) = c_rawptr (s_c s)) by intuition congruence.
  apply wforced_rest; auto; try (intuition congruence).
  intros cr d Hcr Hd. rewrite R2. apply (HA cr d); intuition congruence.
Qed.

Hypothesis PK : P LKeep.

Lemma wupgrade : forall s, c_kind (s_c s) = KOpp -> P LUpgrade -> quit_ok P s ->
  walk P upgradeToSecureConnection s.
Proof.
  intros s K H Q. unfold upgradeToSecureConnection. apply wlog_then; [assumption|assumption|assumption|].
  intros s1 C1 Q1. core_facts C1. unfold sendRaw3. apply walk_bind.
  - unfold sendRaw2, sendRaw2_with. apply walk_bind; [apply walk_send_up; [by_base|exact H|congruence]|].
    intros r s2 _ S2. assert (Q2 := steps_quit P PNC _ _ S2 Q1).
    destruct r; try apply walk_ret; try apply walk_killed.
    apply walk_bind; [apply werrno; assumption|]. intros u s3 _ S3. assert (Q3 := steps_quit P PNC _ _ S3 Q2).
    apply walk_bind; [apply wcleanup; assumption|]. intros. apply walk_ret.
  - intros r s2 _ S2. assert (Q2 := steps_quit P PNC _ _ S2 Q1). destruct (negb (r =? 0)); [apply walk_ret|].
    apply walk_bind; [apply wraw_reply; assumption|]. intros c s3 _ S3. assert (Q3 := steps_quit P PNC _ _ S3 Q2).
    destruct (negb (c =? -1)); [apply walk_ret|].
    apply walk_bind; [apply wcleanup; assumption|]. intros. apply walk_ret.
Qed.

Definition opp_rest : M Z :=
  g <- checkServerGreetings;;
  if negb (g =? STATUS_CODE_SERVICE_READY) then ret g else
  i <- sendServerIdentification;;
  if negb (i =? STATUS_CODE_REQUESTED_MAIL_ACTION_OK_OR_COMPLETED) then ret i else
  c <- getc;;
  tls <- lift (isStartTLSSupported (c_resp c));;
  if tls then
    logc (B "Info: STARTTLS is available by the server, the communication will be encrypted.");;
    u <- upgradeToSecureConnection;;
    if negb (u =? STATUS_CODE_SERVICE_READY) then ret u else
    t <- startTLSNegotiation;;
    if negb (t =? 0) then ret t else secure_tail
  else
    logc (B "Info: STARTTLS is not an available option by the server, the communication will then remain unencrypted.");;
    updc (set_keep true);;
    ret 0.

Lemma wopp_rest : forall s1, c_kind (s_c s1) = KOpp -> quit_ok P s1 ->
  P (LSend EHLO) -> P (LPuts EHLO) -> P LUpgrade ->
  (forall cr d, c_cred (s_c s1) = Some cr -> In d (auth_lines cr) ->
     if c_rawptr (s_c s1) then P (LSend (cstr d)) else P (LPuts (cstr d))) ->
  walk P opp_rest s1.
Proof.
  intros s1 K Q1 HE HE' HS HA. unfold opp_rest.
  apply walk_bind; [apply wgreetings|]. intros g s2 H2 S2. assert (Q2 := steps_quit P PNC _ _ S2 Q1).
  destruct (g =? _); cbn [negb]; [|apply walk_ret].
  apply greeting_core in H2. core_facts H2.
  apply walk_bind; [apply wident; auto|].
  intros i s3 H3 S3. assert (Q3 := steps_quit P PNC _ _ S3 Q2).
  destruct (i =? _) eqn:I3; cbn [negb]; [|apply walk_ret].
  unfold STATUS_CODE_REQUESTED_MAIL_ACTION_OK_OR_COMPLETED in I3.
  apply ident_core in H3; [|lia]. apply core_a_fields in H3.
  assert (K3 : c_kind (s_c s3) = KOpp) by intuition congruence.
  apply walk_getc. apply walk_bind.
  { apply walk_lift. intros u Hu. destruct (starttls_undef _ _ Hu) as [-> [r' Hr]].
    exists r'. split; [assumption|]. rewrite Hr in Hu. exact Hu. }
  intros tls s3' H3' _. unfold lift in H3'. inversion H3'; subst s3'. clear H3'.
  destruct tls.
  - apply wlog_then; [assumption|assumption|assumption|]. intros s4 C4 Q4. core_facts C4.
    assert (K4 : c_kind (s_c s4) = KOpp) by congruence.
    apply walk_bind; [apply wupgrade; assumption|]. intros u s5 H5 S5. assert (Q5 := steps_quit P PNC _ _ S5 Q4).
    destruct (u =? _) eqn:U; cbn [negb]; [|apply walk_ret]. unfold STATUS_CODE_SERVICE_READY in U.
    apply upgrade_core in H5; [|lia]. core_facts H5.
    apply walk_bind; [apply wtls; auto|]. intros t s6 H6 S6. assert (Q6 := steps_quit P PNC _ _ S6 Q5).
    destruct (t =? 0) eqn:T; cbn [negb]; [|apply walk_ret].
    replace t with 0 in H6 by lia. apply tls_done in H6 as (C6 & _ & B6 & _). apply core_t_fields in C6.
    assert (R6 : c_rawptr (s_c s6) = c_rawptr (s_c s1)) by intuition congruence.
    apply wsecure_tail; auto; try (intuition congruence).
    intros cr d Hcr Hd. rewrite R6. apply (HA cr d); intuition congruence.
  - apply wlog_then; [assumption|assumption|assumption|]. intros s4 C4 Q4.
    apply walk_bind; [eapply walk_updc; [apply es_keep|assumption]|]. intros. apply walk_ret.
Qed.

Lemma wopp : forall s, c_kind (s_c s) = KOpp -> c_conn (s_c s) = false ->
  P (LSend EHLO) -> P (LPuts EHLO) -> P LUpgrade ->
  (forall cr d, c_cred (s_c s) = Some cr -> In d (auth_lines cr) ->
     if c_rawptr (s_c s) then P (LSend (cstr d)) else P (LPuts (cstr d))) ->
  walk P establishOpp s.
Proof.
  intros s K Cn HE HE' HS HA. unfold establishOpp. assert (Q := disconnected_quit s Cn).
  apply walk_bind; [apply winitialize|]. intros r s1 H1 S1. assert (Q1 := steps_quit P PNC _ _ S1 Q).
  destruct (r =? 0); cbn [negb]; [|apply walk_ret].
  apply initialize_core in H1 as [C1 _]. apply core_s_fields in C1.
  assert (R2 : c_rawptr (s_c s1) = c_rawptr (s_c s)) by intuition congruence.
  apply wopp_rest; auto; try (intuition congruence).
  intros cr d Hcr Hd. rewrite R2. apply (HA cr d); intuition congruence.
Qed.

Lemma westablish : forall s, c_conn (s_c s) = false ->
  P (LSend EHLO) -> P (LPuts EHLO) -> (c_kind (s_c s) = KOpp -> P LUpgrade) ->
  (forall cr d, c_cred (s_c s) = Some cr -> In d (auth_lines cr) ->
     (c_kind (s_c s) = KPlain \/ c_rawptr (s_c s) = true -> P (LSend (cstr d))) /\
     (c_kind (s_c s) <> KPlain -> c_rawptr (s_c s) = false -> P (LPuts (cstr d)))) ->
  walk P establish s.
Proof.
  intros s Cn HE HE' HS HA. unfold establish. apply walk_getc.
  destruct (c_kind (s_c s)) eqn:K; [apply wplain|apply wopp|apply wforced]; auto.
  - intros cr d Hc Hd. apply (HA cr d Hc Hd). auto.
  - intros cr d Hc Hd. destruct (HA cr d Hc Hd) as [A1 A2].
    destruct (c_rawptr (s_c s)); [auto|apply A2; [discriminate|reflexivity]].
  - intros cr d Hc Hd. destruct (HA cr d Hc Hd) as [A1 A2].
    destruct (c_rawptr (s_c s)); [auto|apply A2; [discriminate|reflexivity]].
Qed.

End Establish.

(** ** The mail transaction *)

(** The texts written by the mail transaction. *)
Inductive tx_line (fs : filesystem) (m : message) : str -> Prop :=
| tl_from : forall d, In d (mail_formats (m_from m)) -> tx_line fs m d
| tl_rcpt : forall l a, In (AArr l) [m_to m; m_cc m; m_bcc m] -> In a l -> tx_line fs m (rcpt_command a)
| tl_data : tx_line fs m (B "DATA" ++ CRLF)
| tl_hfrom : tx_line fs m (header_line (B "From") (address_str (m_from m)))
| tl_hto : forall l, m_to m = AArr l -> l <> [] -> tx_line fs m (header_line (B "To") (generateHeaderAddressValues l))
| tl_hcc : forall l, m_cc m = AArr l -> l <> [] -> tx_line fs m (header_line (B "Cc") (generateHeaderAddressValues l))
| tl_hsubject : tx_line fs m (header_line (B "Subject") (m_subject m))
| tl_htype : tx_line fs m CONTENT_TYPE_LINE
| tl_chunk : forall body d, body_real fs m = Done body -> In d (body_chunks body) -> tx_line fs m d
| tl_end : tx_line fs m END_OF_DATA
| tl_quit : tx_line fs m QUIT.

Section Transaction.
Variable P : label -> Prop.
Hypothesis PB : forall l, base l -> P l.
Hypothesis PNC : ~ P LConn.

Lemma wfb : forall d err tmo s, may_write P (cstr d) -> quit_ok P s -> walk P (sendFeedbackPtr d err tmo) s.
Proof. intros d err tmo s [H1 H2] Q. apply wfeedback_ptr; auto. Qed.
Lemma wcmd : forall d err s, may_write P (cstr d) -> quit_ok P s -> walk P (sendCommandPtr d err) s.
Proof. intros d err s [H1 H2] Q. apply wcommand; auto. Qed.

Lemma wlt : forall {A} (m : M A) item s, quit_ok P s ->
  (forall s1, quit_ok P s1 -> walk P m s1) -> walk P (logc item;; m) s.
Proof. intros A m item s Q H. apply wlog_then; auto. Qed.

Lemma wbind : forall {A C} (m : M A) (k : A -> M C) s, quit_ok P s -> walk P m s ->
  (forall a s1, quit_ok P s1 -> walk P (k a) s1) -> walk P (bind m k) s.
Proof.
  intros A C m k s Q H1 H2. apply walk_bind; [assumption|]. intros a s1 _ S. apply H2.
  eapply steps_quit; eauto.
Qed.

Lemma wmail_from : forall fmts last s, (forall d, In d fmts -> may_write P (cstr d)) -> quit_ok P s ->
  walk P (mail_from_loop fmts last) s.
Proof.
  induction fmts as [|f r IH]; intros last s H Q; cbn [mail_from_loop]; [apply walk_ret|].
  apply wlt; [assumption|]. intros s1 Q1. apply wbind; [assumption|apply wfb; [apply H; left; reflexivity|assumption]|].
  intros code s2 Q2. destruct (code =? 250); [apply walk_ret|]. destruct (negb _); [apply walk_ret|].
  apply IH; [|assumption]. intros d Hd. apply H. right. assumption.
Qed.

Lemma wrcpt : forall l result s, (forall a, In a l -> may_write P (cstr (rcpt_command a))) -> quit_ok P s ->
  walk P (addMailRecipients l result) s.
Proof.
  induction l as [|a r IH]; intros result s H Q; cbn [addMailRecipients]; [apply walk_ret|].
  apply wlt; [assumption|]. intros s1 Q1. apply wbind; [assumption|apply wfb; [apply H; left; reflexivity|assumption]|].
  intros code s2 Q2. apply IH; [|assumption]. intros d Hd. apply H. right. assumption.
Qed.

Lemma wrecipients : forall ls s, 
  (forall l a, In (AArr l) ls -> In a l -> may_write P (cstr (rcpt_command a))) -> quit_ok P s ->
  walk P (recipients_loop ls) s.
Proof.
  induction ls as [|[n|l] r IH]; intros s H Q; cbn [recipients_loop]; [apply walk_ret| |].
  - apply IH; [|assumption]. intros l a Hl. apply H. right. assumption.
  - apply wbind; [assumption|apply wrcpt; [|assumption]|].
    + intros a Ha. apply (H l a); [left; reflexivity|assumption].
    + intros code s1 Q1. destruct (negb _); [apply walk_ret|]. apply IH; [|assumption].
      intros l' a Hl. apply H. right. assumption.
Qed.

Lemma waddress_header : forall field a s,
  (forall l, a = AArr l -> l <> [] -> may_write P (cstr (header_line field (generateHeaderAddressValues l)))) ->
  (forall n, a = ANull (S n) -> P LNull) -> quit_ok P s -> walk P (address_header field a) s.
Proof.
  intros field a s H HN Q. destruct a as [[|n]|[|x l]]; cbn [address_header]; try apply walk_ret.
  - apply walk_ub. simpl. eapply HN. reflexivity.
  - apply wbind; [assumption| |intros; apply walk_ret]. unfold addMailHeader. apply wlt; [assumption|].
    intros s1 Q1. apply wcmd; [|assumption]. apply H; [reflexivity|discriminate].
Qed.

Lemma wchunks : forall l err s, (forall d, In d l -> may_write P (cstr d)) -> quit_ok P s ->
  walk P (send_chunks l err) s.
Proof.
  induction l as [|x r IH]; intros err s H Q; cbn [send_chunks]; [apply walk_ret|].
  apply wbind; [assumption|apply wcmd; [apply H; left; reflexivity|assumption]|].
  intros code s1 Q1. destruct (negb _); [apply walk_ret|]. apply IH; [|assumption]. intros d Hd. apply H. right. assumption.
Qed.

Variable m : message.
Variable fs : filesystem.
Hypothesis Hw : forall d, tx_line fs m d -> may_write P (cstr d).
Hypothesis HN : forall n, m_to m = ANull (S n) \/ m_cc m = ANull (S n) \/ m_atts m = ANull (S n) -> P LNull.

Lemma wset_recipients : forall s, quit_ok P s -> walk P (setMailRecipients m) s.
Proof.
  intros s Q. unfold setMailRecipients. apply wbind; [assumption|apply wmail_from; [|assumption]|].
  - intros d Hd. apply Hw. apply tl_from. assumption.
  - intros code s1 Q1. destruct (negb _); [apply walk_ret|]. apply wrecipients; [|assumption].
    intros l a Hl Ha. apply Hw. eapply tl_rcpt; eauto.
Qed.

Lemma wset_headers : forall s, quit_ok P s -> walk P (setMailHeaders m) s.
Proof.
  intros s Q. unfold setMailHeaders. apply wlt; [assumption|]. intros s1 Q1.
  apply wbind; [assumption|apply wfb; [apply Hw, tl_data|assumption]|]. intros d s2 Q2.
  destruct (negb _); [apply walk_ret|].
  apply wbind; [assumption| |].
  { unfold addMailHeader. apply wlt; [assumption|]. intros. apply wcmd; [apply Hw, tl_hfrom|assumption]. }
  intros f s3 Q3. destruct (negb _); [apply walk_ret|].
  apply wbind; [assumption| |].
  { apply waddress_header; [intros; apply Hw; apply tl_hto; assumption|intros; eapply HN; eauto|assumption]. }
  intros _ s4 Q4. apply wbind; [assumption| |].
  { apply waddress_header; [intros; apply Hw; apply tl_hcc; assumption|intros; eapply HN; eauto|assumption]. }
  intros _ s5 Q5. apply wlt; [assumption|]. intros s6 Q6.
  apply wbind; [assumption|apply wcmd; [apply Hw, tl_hsubject|assumption]|]. intros x s7 Q7.
  destruct (negb _); [apply walk_ret|]. apply wlt; [assumption|]. intros s8 Q8.
  apply wbind; [assumption|apply wcmd; [apply Hw, tl_htype|assumption]|]. intros y s9 Q9.
  destruct (negb _); apply walk_ret.
Qed.

Lemma wquit : forall s, quit_ok P s -> walk P sendQuitCommand s.
Proof.
  intros s Q. unfold sendQuitCommand, sendQuit_with. apply wlt; [assumption|]. intros s1 Q1.
  apply (wcmd (B "QUIT" ++ CRLF)); [|assumption]. exact (Hw _ (tl_quit fs m)).
Qed.

Lemma steps_fs : forall s s', steps P s s' -> e_fs (s_e s') = e_fs (s_e s).
Proof.
  intros s s' H. induction H; [reflexivity|]. rewrite IHsteps. destruct H; try reflexivity.
  - apply H.
  - apply addLog_core in H as (_ & -> & _). reflexivity.
  - unfold teardown. destruct (c_kind (s_c s)); reflexivity.
Qed.

Lemma wset_body : forall s, e_fs (s_e s) = fs -> quit_ok P s -> walk P (setMailBody m) s.
Proof.
  intros s F Q. unfold setMailBody. apply walk_bind; [apply wlogc; assumption|]. intros u s1 H1 S1.
  assert (Q1 := steps_quit P PNC _ _ S1 Q). assert (F1 := steps_fs _ _ S1).
  apply walk_gete. apply walk_bind.
  { apply walk_lift. intros ub Hb. unfold body_real in Hb.
    destruct (m_atts m) as [[|n]|[|]] eqn:A; try discriminate Hb. inversion Hb; subst. simpl. eapply HN. eauto. }
  intros body s1' Hb _. unfold lift in Hb. injection Hb as Hb <-. rewrite F1, F in Hb.
  apply wbind; [assumption|apply wchunks; [|assumption]|].
  { intros d Hd. apply Hw. eapply tl_chunk; eauto. }
  intros r s2 Q2. destruct (negb _); [apply walk_ret|]. apply wlt; [assumption|]. intros s3 Q3.
  apply wbind; [assumption|apply wfb; [apply Hw, tl_end|assumption]|]. intros d s4 Q4.
  destruct (negb _); [apply walk_ret|]. apply walk_getc. destruct (c_batch (s_c s4)); [apply walk_ret|].
  apply wbind; [assumption|apply wquit; assumption|]. intros q s5 Q5. destruct (negb _); apply walk_ret.
Qed.

Lemma wtransaction : forall s, e_fs (s_e s) = fs -> walk P (mail_transaction m) s.
Proof.
  intros s F. assert (Q : quit_ok P s). { intros _. exact (Hw _ (tl_quit fs m)). }
  unfold mail_transaction. apply walk_bind; [apply wset_recipients; assumption|].
  intros r s1 _ S1. assert (Q1 := steps_quit P PNC _ _ S1 Q). assert (F1 := steps_fs _ _ S1).
  destruct (negb _); [apply walk_ret|].
  apply walk_bind; [apply wset_headers; assumption|].
  intros h s2 _ S2. assert (Q2 := steps_quit P PNC _ _ S2 Q1). assert (F2 := steps_fs _ _ S2).
  destruct (negb _); [apply walk_ret|].
  apply walk_bind; [apply wset_body; [congruence|assumption]|].
  intros b s3 _ S3. assert (Q3 := steps_quit P PNC _ _ S3 Q2).
  destruct (negb _); [apply walk_ret|]. apply walk_getc.
  apply wbind; [assumption| |intros; apply walk_ret].
  destruct (c_batch (s_c s3)); [apply walk_ret|]. apply wcleanup; assumption.
Qed.

End Transaction.
