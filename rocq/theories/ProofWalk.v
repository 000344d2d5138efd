(** The paths of the higher level client functions. *)

From Coq Require Import Ascii String List NArith ZArith Bool Lia ZifyBool ZifyNat ZifyN.
From Verif Require Import Base Lib ModelUtil ModelBase64 ModelAddress ModelAttachment
  ModelErrors ModelReply ModelMessage ModelState ModelClient ProofSteps.
Import ListNotations.
Open Scope Z_scope.

(** ** Inversion *)

Lemma bind_done : forall {A C} (m : M A) (k : A -> M C) s b s',
  bind m k s = (Done b, s') -> exists a s1, m s = (Done a, s1) /\ k a s1 = (Done b, s').
Proof.
  intros A C m k s b s' H. unfold bind in H. destruct (m s) as [o s1].
  destruct o; try discriminate H. eauto.
Qed.
Lemma ret_done : forall {A} (a : A) s b s', ret a s = (Done b, s') -> b = a /\ s' = s.
Proof. intros A a s b s' H. inversion H. auto. Qed.

(** ** Everything except the log, the last response and the last error *)

Definition core (c : client) : client := set_log None 0 (set_resp None (set_errno 0 c)).

Definition quiet (l : label) : Prop :=
  match l with LEnv | LLog | LErrno | LResp | LFcntl | LRead => True | _ => False end.
Definition base (l : label) : Prop :=
  match l with LEnv | LLog | LErrno | LResp | LFcntl | LRead | LClose => True | _ => False end.
Lemma quiet_base : forall l, quiet l -> base l.
Proof. intros []; simpl; tauto. Qed.

Lemma addLog_core : forall item prefix s s', addLog item prefix s = (Done tt, s') ->
  core (s_c s') = core (s_c s) /\ s_e s' = s_e s /\ s_t s' = s_t s /\ c_resp (s_c s') = c_resp (s_c s).
Proof.
  intros item prefix s s' H. unfold addLog, bind, getc in H.
  destruct (c_log (s_c s)); [|discriminate H]. cbv zeta in H.
  repeat match type of H with (if ?b then _ else _) _ = _ => destruct b end; try discriminate H.
  inversion H; subst. auto.
Qed.

Lemma logc_core : forall item s s', logc item s = (Done tt, s') ->
  core (s_c s') = core (s_c s) /\ s_e s' = s_e s /\ s_t s' = s_t s /\ c_resp (s_c s') = c_resp (s_c s).
Proof. unfold logc. intros. eapply addLog_core. eassumption. Qed.
Lemma logs_core : forall item s s', logs item s = (Done tt, s') ->
  core (s_c s') = core (s_c s) /\ s_e s' = s_e s /\ s_t s' = s_t s /\ c_resp (s_c s') = c_resp (s_c s).
Proof. unfold logs. intros. eapply addLog_core. eassumption. Qed.

Lemma estep_core : forall l s s', estep l s s' -> quiet l -> core (s_c s') = core (s_c s).
Proof.
  intros l s s' H Q. destruct H; try destruct Q; try reflexivity.
  apply addLog_core in H. tauto.
Qed.
Lemma steps_core : forall s s', steps quiet s s' -> core (s_c s') = core (s_c s).
Proof.
  intros s s' H. induction H; [reflexivity|]. rewrite IHsteps. eapply estep_core; eauto.
Qed.

Lemma core_fields : forall c d, core c = core d ->
  c_kind c = c_kind d /\ c_conn c = c_conn d /\ c_server c = c_server d /\ c_port c = c_port d /\
  c_batch c = c_batch d /\ c_timeout c = c_timeout d /\ c_auth c = c_auth d /\ c_cred c = c_cred d /\
  c_sock c = c_sock d /\ c_keep c = c_keep d /\ c_rawptr c = c_rawptr d /\ c_bio c = c_bio d /\
  c_ctx c = c_ctx d /\ c_selfsigned c = c_selfsigned d.
Proof. intros c d H. unfold core in H. inversion H. repeat split; assumption. Qed.

Ltac core_facts H :=
  let X := fresh "CF" in assert (X := core_fields _ _ H);
  destruct X as (?CFkind & ?CFconn & ?CFserver & ?CFport & ?CFbatch & ?CFtimeout & ?CFauth & ?CFcred &
    ?CFsock & ?CFkeep & ?CFrawptr & ?CFbio & ?CFctx & ?CFself).

Ltac by_base := match goal with H : forall l, ?b l -> ?P l |- ?P _ => apply H; exact I end.

Lemma quiet_raw_reply : forall s, walk quiet getRawCommandReply s.
Proof. intros. apply walk_raw_reply; exact I. Qed.
Lemma quiet_reply : forall s, walk quiet getServerReply s.
Proof. intros. apply walk_reply; exact I. Qed.
Lemma quiet_logc : forall i s, walk quiet (logc i) s.
Proof. intros. apply walk_logc. exact I. Qed.

Lemma walk_core : forall {A} (m : M A) s a s', walk quiet m s -> m s = (Done a, s') -> core (s_c s') = core (s_c s).
Proof. intros A m s a s' [H _] E. rewrite E in H. apply steps_core. exact H. Qed.

Lemma send_core : forall d s r s', sys_send d s = (Done r, s') ->
  s_c s' = s_c s /\ s_t s' = s_t s ++ [EvSend (c_sock (s_c s)) d r].
Proof.
  intros d s r s' H. unfold sys_send, bind, getc, gete, emit, ret, upde in H.
  destruct (e_send (s_e s)); inversion H; subst; auto.
Qed.
Lemma puts_core : forall b d s r s', sys_puts b d s = (Done r, s') ->
  s_c s' = s_c s /\ s_t s' = s_t s ++ [EvPuts (bio_id b) d r].
Proof.
  intros b d s r s' H. unfold sys_puts, bind, gete, emit, ret, upde in H.
  destruct (e_bputs (s_e s)); inversion H; subst; auto.
Qed.

(** ** Which channel a command takes *)

Definition raw_command (c : client) : bool :=
  c_rawptr c || match c_kind c with KPlain => true | _ => false end.
Definition raw_feedback (c : client) : bool :=
  match c_kind c with KPlain => true | _ => match c_bio c with None => true | _ => false end end.
Definition raw_feedback_ptr (c : client) : bool := c_rawptr c || raw_feedback c.

Section Walks.
Variable P : label -> Prop.
Hypothesis PB : forall l, base l -> P l.
Hypothesis PNC : ~ P LConn.

Lemma quiet_P : forall l, quiet l -> P l.
Proof. intros. apply PB, quiet_base. assumption. Qed.

Lemma steps_quit : forall a b, steps P a b -> quit_ok P a -> quit_ok P b.
Proof.
  intros a b H. induction H; auto. intros Q. apply IHsteps. intros E. apply Q. clear IHsteps H1 Q.
  destruct H; simpl in *; try assumption.
  - apply addLog_core in H. destruct H as (H & _). core_facts H. rewrite CFbatch, CFconn in *. assumption.
  - contradiction.
  - unfold teardown in E. destruct (c_kind (s_c s)); simpl in E; rewrite andb_false_r in E; discriminate.
Qed.

Lemma wcleanup : forall s, quit_ok P s -> walk P cleanup s.
Proof. intros. apply walk_cleanup; try by_base; assumption. Qed.

Lemma wraw_reply : forall s, walk P getRawCommandReply s.
Proof. intros. apply walk_raw_reply; by_base. Qed.
Lemma wreply : forall s, walk P getServerReply s.
Proof. intros. apply walk_reply; by_base. Qed.
Lemma wlogc : forall i s, walk P (logc i) s.
Proof. intros. apply walk_logc. by_base. Qed.
Lemma wlogs : forall i s, walk P (logs i) s.
Proof. intros. apply walk_logs. by_base. Qed.
Lemma waddLog : forall i p s, walk P (addLog i p) s.
Proof. intros. apply walk_addLog. by_base. Qed.
Lemma werrno : forall e s, walk P (setLastSocketErrNo e) s.
Proof. intros. eapply walk_updc; [apply es_errno|by_base]. Qed.

Ltac w1 :=
  match goal with
  | |- walk _ (bind getc _) _ => apply walk_getc
  | |- walk _ (bind gete _) _ => apply walk_gete
  | |- walk _ (bind _ _) ?s =>
      apply walk_bind; [|let a := fresh "a" in let s1 := fresh "s" in let E := fresh "E" in let S := fresh "S" in
        intros a s1 E S; try (let Q := fresh "Q" in
          match goal with HQ : quit_ok P s |- _ => assert (Q := steps_quit _ _ S HQ) end)]
  | |- walk _ (ret _) _ => apply walk_ret
  | |- walk _ blocked _ => apply walk_blocked
  | |- walk _ killed _ => apply walk_killed
  | |- walk _ diverge _ => apply walk_diverge
  | |- walk _ (logc _) _ => apply wlogc
  | |- walk _ (logs _) _ => apply wlogs
  | |- walk _ (addLog _ _) _ => apply waddLog
  | |- walk _ (setLastSocketErrNo _) _ => apply werrno
  | |- walk _ cleanup _ => apply wcleanup; assumption
  | |- walk _ getRawCommandReply _ => apply wraw_reply
  | |- walk _ getServerReply _ => apply wreply
  | |- walk _ (if ?b then _ else _) _ => destruct b eqn:?
  | |- walk _ (match ?x with _ => _ end) _ => destruct x eqn:?
  end.
Ltac ws := repeat w1.

Lemma wraw2 : forall cmd err s, P (LSend (cstr cmd)) -> clear_reason (s_c s) -> quit_ok P s ->
  walk P (sendRaw2 cmd err) s.
Proof.
  intros cmd err s H R Q. unfold sendRaw2, sendRaw2_with. ws. apply walk_send; [by_base|assumption|assumption].
Qed.

Lemma wcommand_tls : forall cmd err s, P (LPuts (cstr cmd)) -> c_kind (s_c s) <> KPlain -> quit_ok P s ->
  walk P (sendCommandTLS_with cleanup cmd err) s.
Proof.
  intros cmd err s H K Q. unfold sendCommandTLS_with. apply walk_getc. destruct (c_bio (s_c s)) eqn:E; ws.
  apply walk_puts; [by_base|assumption|assumption|assumption].
Qed.

Lemma wcommand : forall cmd err s,
  (raw_command (s_c s) = true -> P (LSend (cstr cmd))) ->
  (raw_command (s_c s) = false -> P (LPuts (cstr cmd))) -> quit_ok P s ->
  walk P (sendCommandPtr cmd err) s.
Proof.
  intros cmd err s H1 H2 Q. unfold sendCommandPtr, sendCommandPtr_with, raw_command in *. apply walk_getc.
  destruct (c_rawptr (s_c s)) eqn:R; simpl in *; [apply wraw2; auto; left; assumption|].
  destruct (c_kind (s_c s)) eqn:K.
  - apply wraw2; auto. right. left. assumption.
  - apply wcommand_tls; auto. congruence.
  - apply wcommand_tls; auto. congruence.
Qed.

Lemma wraw3 : forall cmd err tmo s, P (LSend (cstr cmd)) -> clear_reason (s_c s) -> quit_ok P s ->
  walk P (sendRaw3 cmd err tmo) s.
Proof. intros cmd err tmo s H R Q. unfold sendRaw3. ws. apply wraw2; assumption. Qed.

Lemma wfeedback : forall cmd err tmo s,
  (raw_feedback (s_c s) = true -> P (LSend (cstr cmd))) ->
  (raw_feedback (s_c s) = false -> P (LPuts (cstr cmd))) -> quit_ok P s ->
  walk P (sendFeedback cmd err tmo) s.
Proof.
  intros cmd err tmo s H1 H2 Q. unfold sendFeedback, raw_feedback in *. apply walk_getc.
  assert (T : c_kind (s_c s) <> KPlain ->
              (match c_bio (s_c s) with None => true | _ => false end = true -> P (LSend (cstr cmd))) ->
              (match c_bio (s_c s) with None => true | _ => false end = false -> P (LPuts (cstr cmd))) ->
              walk P (sendFeedbackTLS cmd err tmo) s).
  { intros K X1 X2. unfold sendFeedbackTLS. apply walk_getc. destruct (c_bio (s_c s)) eqn:E.
    - ws. apply walk_puts; [by_base|assumption|assumption|auto].
    - apply wraw3; auto. right. right. assumption. }
  destruct (c_kind (s_c s)) eqn:K; [apply wraw3; auto; right; left; assumption|apply T; auto; discriminate|apply T; auto; discriminate].
Qed.

Lemma wfeedback_ptr : forall cmd err tmo s,
  (raw_feedback_ptr (s_c s) = true -> P (LSend (cstr cmd))) ->
  (raw_feedback_ptr (s_c s) = false -> P (LPuts (cstr cmd))) -> quit_ok P s ->
  walk P (sendFeedbackPtr cmd err tmo) s.
Proof.
  intros cmd err tmo s H1 H2 Q. unfold sendFeedbackPtr, raw_feedback_ptr in *. apply walk_getc.
  destruct (c_rawptr (s_c s)) eqn:R; [apply wraw3; auto; left; assumption|apply wfeedback; auto].
Qed.

(** A reply: nothing was torn down. *)
Lemma raw3_reply : forall cmd err tmo s code s', sendRaw3 cmd err tmo s = (Done code, s') ->
  code <> err -> code <> tmo -> err <> 0 -> core (s_c s') = core (s_c s) /\ c_resp (s_c s') <> None.
Proof.
  intros cmd err tmo s code s' H N1 N2 N3. unfold sendRaw3 in H.
  apply bind_done in H as (r & s1 & H1 & H).
  destruct (r =? 0) eqn:R; simpl in H; [|apply ret_done in H as [-> _]; congruence].
  apply bind_done in H as (c & s2 & H2 & H).
  destruct (c =? -1) eqn:C; simpl in H.
  - apply bind_done in H as (u & s3 & H3 & H). apply ret_done in H as [-> _]. congruence.
  - apply ret_done in H as [-> ->].
    assert (C1 : core (s_c s1) = core (s_c s)).
    { unfold sendRaw2, sendRaw2_with in H1. apply bind_done in H1 as (w & s3 & H3 & H1).
      apply send_core in H3 as [H3 _]. rewrite <- H3.
      destruct w; try discriminate H1; try (apply ret_done in H1 as [_ ->]; reflexivity).
      apply bind_done in H1 as (u & s4 & _ & H1). apply bind_done in H1 as (u' & s5 & _ & H1).
      apply ret_done in H1 as [-> _]. lia. }
    split.
    + rewrite <- C1. eapply walk_core; [|exact H2]. apply quiet_raw_reply.
    + clear -H2 C. unfold getRawCommandReply in H2.
      apply bind_done in H2 as (u1 & t1 & _ & H2). unfold bind at 1 2, getc, gete in H2.
      destruct (raw_loop _ _ _ _ _ _) as [[o evs] rest].
      apply bind_done in H2 as (u2 & t2 & _ & H2). apply bind_done in H2 as (u3 & t3 & _ & H2).
      apply bind_done in H2 as ([[wait got] full] & t4 & _ & H2).
      apply bind_done in H2 as (u5 & t5 & _ & H2).
      destruct (_ || _); [|apply ret_done in H2 as [-> _]; discriminate C].
      apply bind_done in H2 as (u6 & t6 & H6 & H2). apply bind_done in H2 as (u7 & t7 & H7 & H2).
      apply ret_done in H2 as [_ ->]. destruct u7. apply logs_core in H7 as (_ & _ & _ & ->).
      inversion H6; subst. discriminate.
Qed.

Lemma reply_tls_resp : forall s code s', getServerReplyTLS s = (Done code, s') -> code <> -1 ->
  c_resp (s_c s') <> None.
Proof.
  intros s code s' H N. unfold getServerReplyTLS in H. apply bind_done in H as (r & s1 & _ & H).
  destruct r; [|apply ret_done in H as [-> _]; congruence].
  apply bind_done in H as (u & s2 & H2 & H). apply bind_done in H as (u' & s3 & H3 & H).
  apply ret_done in H as [_ ->]. destruct u'. apply logs_core in H3 as (_ & _ & _ & ->). inversion H2; subst. discriminate.
Qed.

Lemma raw_reply_resp : forall s code s', getRawCommandReply s = (Done code, s') -> code <> -1 ->
  c_resp (s_c s') <> None.
Proof.
  intros s code s' H2 C. unfold getRawCommandReply in H2.
  apply bind_done in H2 as (u1 & t1 & _ & H2). unfold bind at 1 2, getc, gete in H2.
  destruct (raw_loop _ _ _ _ _ _) as [[o evs] rest].
  apply bind_done in H2 as (u2 & t2 & _ & H2). apply bind_done in H2 as (u3 & t3 & _ & H2).
  apply bind_done in H2 as ([[wait got] full] & t4 & _ & H2).
  apply bind_done in H2 as (u5 & t5 & _ & H2).
  destruct (_ || _); [|apply ret_done in H2 as [-> _]; congruence].
  apply bind_done in H2 as (u6 & t6 & H6 & H2). apply bind_done in H2 as (u7 & t7 & H7 & H2).
  apply ret_done in H2 as [_ ->]. destruct u7. apply logs_core in H7 as (_ & _ & _ & ->).
  inversion H6; subst. discriminate.
Qed.

Lemma reply_resp : forall s code s', getServerReply s = (Done code, s') -> code <> -1 ->
  c_resp (s_c s') <> None.
Proof.
  intros s code s' H N. unfold getServerReply, bind, getc in H.
  destruct (c_kind (s_c s)); eauto using raw_reply_resp, reply_tls_resp.
Qed.

Lemma feedback_reply : forall cmd err tmo s code s', sendFeedback cmd err tmo s = (Done code, s') ->
  code <> err -> code <> tmo -> err <> 0 -> core (s_c s') = core (s_c s) /\ c_resp (s_c s') <> None.
Proof.
  intros cmd err tmo s code s' H N1 N2 N3. unfold sendFeedback, bind at 1, getc in H.
  assert (T : sendFeedbackTLS cmd err tmo s = (Done code, s') ->
    core (s_c s') = core (s_c s) /\ c_resp (s_c s') <> None).
  { clear H. intros H. unfold sendFeedbackTLS, bind at 1, getc in H.
    destruct (c_bio (s_c s)) as [b|] eqn:E; [|eapply raw3_reply; eauto].
    apply bind_done in H as (w & s1 & H1 & H). apply puts_core in H1 as [H1 _]. rewrite <- H1.
    destruct w; try discriminate H;
    try (apply bind_done in H as (c & s2 & H2 & H); destruct (c =? -1) eqn:C; simpl in H;
         [apply bind_done in H as (u & s3 & H3 & H); apply ret_done in H as [-> _]; congruence|
          apply ret_done in H as [-> ->]; split; [eapply walk_core; [|exact H2]; apply quiet_reply|
            eapply reply_resp; [exact H2|lia]]]).
    apply bind_done in H as (u & s4 & _ & H). apply bind_done in H as (u' & s5 & _ & H).
    apply ret_done in H as [-> _]. congruence. }
  destruct (c_kind (s_c s)); auto. eapply raw3_reply; eauto.
Qed.

Lemma feedback_ptr_reply : forall cmd err tmo s code s', sendFeedbackPtr cmd err tmo s = (Done code, s') ->
  code <> err -> code <> tmo -> err <> 0 -> core (s_c s') = core (s_c s).
Proof.
  intros cmd err tmo s code s' H N1 N2 N3. unfold sendFeedbackPtr, bind at 1, getc in H.
  destruct (c_rawptr (s_c s)); [eapply raw3_reply; eauto|eapply feedback_reply; eauto].
Qed.

(** ** EHLO *)

Hypothesis PA : P LAuth.

Lemma wehlo_loop : forall n tmo opts s, walk P (ehlo_loop n tmo opts) s.
Proof.
  induction n as [|n IH]; intros tmo opts s; cbn [ehlo_loop].
  - ws. eapply walk_updc; [apply es_auth|assumption].
  - destruct (containsAllOptions opts); [ws; eapply walk_updc; [apply es_auth|assumption]|].
    apply walk_bind; [apply wreply|]. intros code s1 E S.
    destruct (code =? -1) eqn:C; [ws|]. destruct (negb (code =? 250)); [ws|]. apply walk_getc.
    assert (R := reply_resp _ _ _ E ltac:(lia)). destruct (c_resp (s_c s1)); [apply IH|congruence].
Qed.

Lemma wehlo : forall err tmo s, err <> 0 -> err <> 250 -> tmo <> 250 ->
  (raw_feedback (s_c s) = true -> P (LSend EHLO)) ->
  (raw_feedback (s_c s) = false -> P (LPuts EHLO)) -> quit_ok P s ->
  walk P (ehlo_with err tmo) s.
Proof.
  intros err tmo s N0 N1 N2 H1 H2 Q. unfold ehlo_with. apply walk_bind; [apply wlogc|]. intros u s1 E1 S1.
  destruct u. apply logc_core in E1 as (E1 & _). core_facts E1.
  apply walk_bind.
  - apply wfeedback; unfold raw_feedback in *; rewrite ?CFkind, ?CFbio; try assumption.
    eapply steps_quit; eauto.
  - intros code s2 E2 S2. destruct (code =? 250) eqn:C; cbn [negb]; [|apply walk_ret].
    apply feedback_reply in E2 as [_ E2]; try lia.
    apply walk_getc. destruct (c_resp (s_c s2)) eqn:R; [|congruence].
    apply walk_gete. apply wehlo_loop.
Qed.

Lemma wident : forall s,
  (raw_feedback (s_c s) = true -> P (LSend EHLO)) ->
  (raw_feedback (s_c s) = false -> P (LPuts EHLO)) -> quit_ok P s ->
  walk P sendServerIdentification s.
Proof. intros. apply wehlo; try assumption; discriminate. Qed.

Lemma wsecure_ident : forall s,
  (raw_feedback (s_c s) = true -> P (LSend EHLO)) ->
  (raw_feedback (s_c s) = false -> P (LPuts EHLO)) -> quit_ok P s ->
  walk P getServerSecureIdentification s.
Proof.
  intros s H1 H2 Q. unfold getServerSecureIdentification. apply walk_bind; [apply wlogc|].
  intros u s1 E1 S1. destruct u. apply logc_core in E1 as (E1 & _). core_facts E1.
  apply wehlo; try discriminate; unfold raw_feedback in *; rewrite ?CFkind, ?CFbio; try assumption.
  eapply steps_quit; eauto.
Qed.

(** ** Authentication *)

Definition auth_lines (cr : credential) : list str :=
  [plain_command cr; B "AUTH LOGIN" ++ CRLF; Encode (cr_user cr) ++ CRLF; Encode (cr_pass cr) ++ CRLF;
   xoauth2_command cr].

Lemma wlog_then : forall {A} (m : M A) item s, quit_ok P s ->
  (forall s1, core (s_c s1) = core (s_c s) -> quit_ok P s1 -> walk P m s1) -> walk P (logc item;; m) s.
Proof.
  intros A m item s Q H. apply walk_bind; [apply wlogc|]. intros u s1 E1 S1. destruct u.
  apply logc_core in E1 as (E1 & _). apply H; [assumption|eapply steps_quit; eauto].
Qed.

Lemma raw_feedback_ptr_core : forall c d, core c = core d -> raw_feedback_ptr c = raw_feedback_ptr d.
Proof. intros c d H. core_facts H. unfold raw_feedback_ptr, raw_feedback. rewrite CFkind, CFbio, CFrawptr. reflexivity. Qed.
Lemma raw_command_core : forall c d, core c = core d -> raw_command c = raw_command d.
Proof. intros c d H. core_facts H. unfold raw_command. rewrite CFkind, CFrawptr. reflexivity. Qed.

(** [d] may be written on the channel that commands take in state [c]. *)
Definition route_ok (c : client) (d : str) : Prop :=
  (raw_feedback_ptr c = true -> P (LSend (cstr d))) /\ (raw_feedback_ptr c = false -> P (LPuts (cstr d))).

Lemma wauth_login : forall cr s,
  (forall d, In d [B "AUTH LOGIN" ++ CRLF; Encode (cr_user cr) ++ CRLF; Encode (cr_pass cr) ++ CRLF] -> route_ok (s_c s) d) ->
  quit_ok P s -> walk P (authLogin cr) s.
Proof.
  intros cr s H Q. unfold authLogin. apply wlog_then; [assumption|]. intros s1 C1 Q1.
  assert (R1 := raw_feedback_ptr_core _ _ C1).
  apply walk_bind.
  { destruct (H (B "AUTH LOGIN" ++ CRLF)) as [X1 X2]; [left; reflexivity|].
    apply wfeedback_ptr; rewrite ?R1; assumption. }
  intros r1 s2 E2 S2. assert (Q2 := steps_quit _ _ S2 Q1).
  destruct (r1 =? STATUS_CODE_SERVER_CHALLENGE) eqn:B1; cbn [negb]; [|apply walk_ret].
  unfold STATUS_CODE_SERVER_CHALLENGE in *.
  apply feedback_ptr_reply in E2; try (unfold CLIENT_AUTHENTICATE_ERROR, CLIENT_AUTHENTICATE_TIMEOUT; lia).
  assert (R2 := raw_feedback_ptr_core _ _ E2). rewrite R1 in R2.
  apply walk_bind.
  { destruct (H (Encode (cr_user cr) ++ CRLF)) as [X1 X2]; [right; left; reflexivity|].
    apply wfeedback_ptr; rewrite ?R2; assumption. }
  intros r2 s3 E3 S3. assert (Q3 := steps_quit _ _ S3 Q2).
  destruct (r2 =? 334) eqn:B2; cbn [negb]; [|apply walk_ret].
  apply feedback_ptr_reply in E3; try (unfold CLIENT_AUTHENTICATE_ERROR, CLIENT_AUTHENTICATE_TIMEOUT; lia).
  assert (R3 := raw_feedback_ptr_core _ _ E3). rewrite R2 in R3.
  destruct (H (Encode (cr_pass cr) ++ CRLF)) as [X1 X2]; [right; right; left; reflexivity|].
  apply wfeedback_ptr; rewrite ?R3; assumption.
Qed.

Lemma wauth : forall s, 
  (forall cr d, c_cred (s_c s) = Some cr -> In d (auth_lines cr) -> route_ok (s_c s) d) ->
  quit_ok P s -> walk P authenticateClient s.
Proof.
  intros s H Q. unfold authenticateClient. apply walk_getc.
  destruct (c_cred (s_c s)) as [cr|] eqn:Ecr; [|apply walk_ret].
  destruct (c_auth (s_c s)) as [o|] eqn:Eau; [|apply walk_ub; split; [assumption|congruence]].
  assert (H' := fun d => H cr d eq_refl). clear H. rename H' into H.
  destruct (_ && _); [|destruct (_ && _); [|destruct (_ && _); [|apply walk_ret]]].
  - apply wlog_then; [assumption|]. intros s1 C1 Q1. assert (R1 := raw_feedback_ptr_core _ _ C1).
    destruct (H (plain_command cr)) as [X1 X2]; [left; reflexivity|].
    apply wfeedback_ptr; rewrite ?R1; assumption.
  - apply wauth_login; [|assumption]. intros d Hd. apply H. simpl in *. tauto.
  - apply wlog_then; [assumption|]. intros s1 C1 Q1. assert (R1 := raw_feedback_ptr_core _ _ C1).
    destruct (H (xoauth2_command cr)) as [X1 X2]; [simpl; tauto|].
    apply wfeedback_ptr; rewrite ?R1; assumption.
Qed.

Lemma wauth_if : forall s, 
  (forall cr d, c_cred (s_c s) = Some cr -> In d (auth_lines cr) -> route_ok (s_c s) d) ->
  quit_ok P s -> walk P authenticate_if_needed s.
Proof.
  intros s H Q. unfold authenticate_if_needed. apply walk_getc. destruct (c_cred (s_c s)) eqn:E; [|apply walk_ret].
  apply walk_bind; [apply wauth; [rewrite E; exact H|assumption]|]. intros. ws.
Qed.

(** ** TLS *)

Hypothesis PT : P LTls.

Lemma wtls_event : forall {A} (m : M A) ev b s, c_bio (s_c s) = Some b -> tls_event (s_c s) ev -> quit_ok P s ->
  (forall s1, c_bio (s_c s1) = Some b -> quit_ok P s1 -> walk P m s1) -> walk P (emit ev;; m) s.
Proof.
  intros A m ev b s Hb T Q H. apply walk_bind; [eapply walk_emit; [apply es_tls; exact T|assumption]|].
  intros u s1 E1 S1. apply H; [inversion E1; exact Hb|eapply steps_quit; eauto].
Qed.
Lemma wtls_log : forall {A} (m : M A) item prefix b s, c_bio (s_c s) = Some b -> quit_ok P s ->
  (forall s1, c_bio (s_c s1) = Some b -> quit_ok P s1 -> walk P m s1) -> walk P (addLog item prefix;; m) s.
Proof.
  intros A m item prefix b s Hb Q H. apply walk_bind; [apply walk_addLog; by_base|]. intros [] s1 E1 S1.
  apply addLog_core in E1 as (E1 & _). core_facts E1. apply H; [congruence|eapply steps_quit; eauto].
Qed.

Lemma wtls : forall s, quit_ok P s -> walk P startTLSNegotiation s.
Proof.
  intros s Q. unfold startTLSNegotiation. apply wlog_then; [assumption|]. intros s1 C1 Q1.
  apply walk_gete. destruct (e_tls (s_e s1)) as [|t l] eqn:E; [apply walk_blocked|].
  apply walk_bind; [apply walk_upde; [env_tac|by_base]|]. intros u s2 E2 S2. assert (Q2 := steps_quit _ _ S2 Q1).
  destruct (negb (t_ctx t)).
  { ws. eapply walk_updc; [apply es_ctx_none|assumption]. }
  match goal with |- walk _ (bind ?a (fun x => bind (emit (EvCtxNew x)) (fun _ => bind (@?c x) (@?k x)))) s2 =>
    change (walk P (bind (bind a (fun x => bind (emit (EvCtxNew x)) (fun _ => c x))) (fun _ => k (e_next (s_e s2)) tt)) s2) end.
  apply walk_bind.
  { split; [|discriminate]. eapply steps_one; [apply es_ctx_new|assumption]. }
  intros u3 s3 E3 S3. assert (Q3 := steps_quit _ _ S3 Q2). inversion E3; subst. clear E3.
  destruct (negb (t_bio t)).
  { ws. eapply walk_updc; [apply es_bio_none|assumption]. }
  set (s3 := {| s_c := set_ctx _ _; s_e := _; s_t := _ |}) in *.
  assert (W : forall k : M Z, 
    (forall s4, s_c s4 = set_bio (Some (mkBio (e_next (s_e s3)) (c_sock (s_c s3)))) (s_c s3) -> quit_ok P s4 -> walk P k s4) ->
    walk P (b <- fresh_id;; c <- getc;; emit (EvBioNew b (c_sock c));; updc (set_bio (Some (mkBio b (c_sock c))));; k) s3).
  { intros k Hk.
    change (walk P (bind (b <- fresh_id;; c <- getc;; emit (EvBioNew b (c_sock c));; updc (set_bio (Some (mkBio b (c_sock c))))) (fun _ => k)) s3).
    apply walk_bind.
    - split; [|discriminate]. eapply steps_one; [apply es_bio_new|assumption].
    - intros u4 s4 E4 S4. apply Hk; [inversion E4; reflexivity|eapply steps_quit; eauto]. }
  match goal with |- walk P (bind fresh_id (fun b => bind getc (fun c => bind _ (fun _ => bind _ (fun _ => @?k b c))))) s3 =>
    apply (W (k (e_next (s_e s3)) (s_c s3))) end.
  intros s4 C4 Q4. cbv beta. destruct (c_server (s_c s3)) as [name|] eqn:N.
  2:{ apply walk_ub. simpl. rewrite C4. exact N. }
  destruct (SERVERNAMEANDPORT_LENGTH <? slen name + 1 + slen (dec_of_N (c_port (s_c s3))) + 1)%N eqn:L.
  { apply walk_ub. simpl. exists name. rewrite C4. split; [exact N|].
    change (c_port (set_bio (Some {| bio_id := e_next (s_e s3); bio_fd := c_sock (s_c s3) |}) (s_c s3)))
      with (c_port (s_c s3)). unfold SERVERNAMEANDPORT_LENGTH in L. lia. }
  set (b := mkBio (e_next (s_e s3)) (c_sock (s_c s3))) in *.
  assert (B4 : c_bio (s_c s4) = Some b) by (rewrite C4; reflexivity). clearbody s3. clear C4.
  change (e_next (s_e s3)) with (bio_id b). clearbody b.
  destruct (negb (t_paths t)); [apply walk_ret|]. destruct (negb (t_connect t)).
  { eapply wtls_event; [exact B4|constructor; exact B4|exact Q4|]. intros s5 _ Q5. ws. }
  eapply wtls_log; [exact B4|exact Q4|]. intros s5 B5 Q5.
  eapply wtls_event; [exact B5|constructor; exact B5|exact Q5|]. intros s6 B6 Q6.
  destruct (negb (t_handshake t)); [ws|].
  eapply wtls_log; [exact B6|exact Q6|]. intros s7 B7 Q7.
  eapply wtls_event; [exact B7|constructor; exact B7|exact Q7|]. intros s8 B8 Q8.
  destruct (negb (t_cert t)); [ws|].
  eapply wtls_event; [exact B8|constructor; exact B8|exact Q8|]. intros s9 _ Q9. ws.
Qed.

(** ** Establishing the connection *)

End Walks.
