(** The paths of the Windows versions of the commands, of authentication and of
    the TLS negotiation (compare ProofWalk.v). *)

From Coq Require Import Ascii String List NArith ZArith Bool Lia ZifyBool ZifyNat ZifyN.
From Verif Require Import Base Lib ModelUtil ModelBase64 ModelAddress ModelAttachment
  ModelErrors ModelReply ModelMessage ModelState ModelClient ProofText ProofSteps ProofWalk ProofPhases ProofEstablish
  ModelWorld ModelWin ProofWinWalk.
Import ListNotations.
Open Scope Z_scope.

(** ** Cleanup *)

Definition wtail (k : clientkind) : W unit :=
  base (updc (set_conn false)) ;;#
  base (match k with KPlain => ret tt | _ => free_tls end) ;;#
  close_socketW.

Lemma wtail_done : forall v, exists v', wtail (c_kind (v_c v)) v = (Done tt, v') /\ proj v' = teardown (proj v).
Proof.
  intros [c on e w t]. cbn [v_c].
  assert (X : fst (wtail (c_kind c) (mkV c on e w t)) = Done tt /\
    proj (snd (wtail (c_kind c) (mkV c on e w t))) = teardown (proj (mkV c on e w t))).
  { unfold wtail, close_socketW, wbind, teardown, free_tls, close_socket, base, proj, wput, wret, bind, updc, getc, emit, ret.
    destruct c as [kd srv prt cred sck kp rp bt tm lg ls rs er au cn bi ct sf].
    destruct kd; cbn -[Z.eqb socks app]; [|destruct ct, bi..]; cbn -[Z.eqb socks app];
      destruct (er =? 0) eqn:Z0; repeat (rewrite ?Z0; cbn -[Z.eqb socks app]);
      (split; [reflexivity|]); rewrite ?socks_app; cbn [socks flat_map app]; rewrite <- ?app_assoc, ?app_nil_r; reflexivity. }
  destruct (wtail _ _) as [o v']. destruct X as [X1 X2]. cbn [fst snd] in *. subst o. eauto.
Qed.

Lemma wbind_assoc : forall {A C D} (m : W A) (k : A -> W C) (h : C -> W D) v,
  wbind (wbind m k) h v = wbind m (fun a => wbind (k a) h) v.
Proof. intros. unfold wbind. destruct (m v) as [o v1]. destruct o; reflexivity. Qed.

Lemma wbind_ext : forall {A C} (m : W A) (k k' : A -> W C) v, (forall a v1, k a v1 = k' a v1) -> wbind m k v = wbind m k' v.
Proof. intros A C m k k' v H. unfold wbind. destruct (m v) as [o v1]. destruct o; try reflexivity. apply H. Qed.

Lemma cleanup_fW_eq : forall n v, cleanup_fW (S n) v = (c <# base getc ;;
  (if c_batch c && c_conn c then _ <# sendQuitW (cleanup_fW n) ;; wret tt else wret tt) ;;#
  wtail (c_kind c) ;;# release_winsock) v.
Proof.
  intros n v. cbn [cleanup_fW]. unfold wtail. apply wbind_ext. intros c v1. apply wbind_ext. intros u v2.
  rewrite wbind_assoc. apply wbind_ext. intros u3 v3. rewrite wbind_assoc. reflexivity.
Qed.

Section Walks.
Variable P : label -> Prop.
Hypothesis PB : forall l, ProofWalk.base l -> P l.

Lemma PQ : forall l, quiet l -> P l.
Proof. intros l H. apply PB, quiet_base, H. Qed.

Lemma xtail : forall v k, k = c_kind (v_c v) -> wwalk P (wtail k ;;# release_winsock) v.
Proof.
  intros v k ->. apply ww_bind; [|intros; apply xrelease; apply PQ].
  destruct (wtail_done v) as (v' & E & T). unfold wwalk. rewrite E. cbn [fst snd]. split; [|discriminate].
  rewrite T. eapply steps_one; [apply es_close|]. by_base.
Qed.

Lemma xraw2_with : forall cl cmd err v, (forall v, wwalk P cl v) -> P (LSend (cstr cmd)) ->
  clear_reason (v_c v) -> wwalk P (sendRaw2W cl cmd err) v.
Proof.
  intros cl cmd err v Hc H R. unfold sendRaw2W. xs; auto. apply ww_base. apply walk_send; [by_base|assumption|assumption].
Qed.
Lemma xcmd_tls_with : forall cl cmd err v, (forall v, wwalk P cl v) -> P (LPuts (cstr cmd)) ->
  c_kind (v_c v) <> KPlain -> wwalk P (sendCommandTLSW cl cmd err) v.
Proof.
  intros cl cmd err v Hc H K. unfold sendCommandTLSW. apply ww_getc.
  destruct (c_bio (v_c v)) eqn:E; xs; auto. apply ww_base. apply walk_puts; [by_base|assumption|assumption|assumption].
Qed.
Lemma xcmd_ptr_with : forall cl cmd err v, (forall v, wwalk P cl v) -> may_write P (cstr cmd) ->
  wwalk P (sendCommandPtrW cl cmd err) v.
Proof.
  intros cl cmd err v Hc [H1 H2]. unfold sendCommandPtrW. apply ww_getc.
  destruct (c_rawptr (v_c v)) eqn:R.
  - apply xraw2_with; auto. left. assumption.
  - destruct (c_kind (v_c v)) eqn:K.
    + apply xraw2_with; auto. right. left. assumption.
    + apply xcmd_tls_with; auto. congruence.
    + apply xcmd_tls_with; auto. congruence.
Qed.

Lemma ww_eq : forall {A} (m m' : W A) v, m v = m' v -> wwalk P m' v -> wwalk P m v.
Proof. intros A m m' v E H. unfold wwalk in *. rewrite E. exact H. Qed.

Lemma xcleanup_f_quit : may_write P QUIT -> forall n v, wwalk P (cleanup_fW n) v.
Proof.
  intros H. induction n as [|n IH]; intros v; [apply xdiverge|].
  eapply ww_eq; [apply cleanup_fW_eq|]. apply ww_getc.
  apply ww_bind.
  - xs. unfold sendQuitW. xs. apply xcmd_ptr_with; [exact IH|exact H].
  - intros u v1 _ S. apply xtail. symmetry. apply steps_kind in S. exact S.
Qed.
Lemma xcleanup_f_noquit : forall n v, c_batch (v_c v) && c_conn (v_c v) = false -> wwalk P (cleanup_fW n) v.
Proof.
  intros [|n] v H; [apply xdiverge|]. eapply ww_eq; [apply cleanup_fW_eq|]. apply ww_getc. rewrite H.
  apply ww_bind; [apply ww_ret|]. intros u v1 _ S. apply xtail. symmetry. apply steps_kind in S. exact S.
Qed.
Lemma xcleanup : forall v, quit_ok P (proj v) -> wwalk P cleanupW v.
Proof.
  intros v H. unfold cleanupW.
  assert (X : wwalk P (cleanup_fW (cleanup_fuel (v_e v))) v).
  { destruct (c_batch (v_c v) && c_conn (v_c v)) eqn:E.
    - apply xcleanup_f_quit. auto.
    - apply xcleanup_f_noquit. assumption. }
  exact X.
Qed.

Hypothesis PNC : ~ P LConn.

Lemma xquit : forall v v1, steps P (proj v) (proj v1) -> quit_ok P (proj v) -> quit_ok P (proj v1).
Proof. intros v v1 S Q. eapply steps_quit; eauto. Qed.

Ltac x1 :=
  match goal with
  | |- wwalk _ (wbind (base getc) _) _ => apply ww_getc
  | |- wwalk _ (wbind (base gete) _) _ => apply ww_gete
  | |- wwalk _ (wbind _ _) ?v =>
      apply ww_bind; [|let a := fresh "a" in let v1 := fresh "v" in let E := fresh "E" in let S := fresh "S" in
        intros a v1 E S; try (let Q := fresh "Q" in
          match goal with HQ : quit_ok P (proj v) |- _ => assert (Q := xquit _ _ S HQ) end)]
  | |- wwalk _ cleanupW _ => apply xcleanup; assumption
  | |- wwalk _ getRawCommandReplyW _ => apply xraw_reply; apply PQ
  | |- wwalk _ getServerReplyW _ => apply xreply; apply PQ
  | _ => x0
  end.
Ltac xx := repeat x1.

Lemma xraw2 : forall cmd err v, P (LSend (cstr cmd)) -> clear_reason (v_c v) -> quit_ok P (proj v) ->
  wwalk P (sendRaw2W cleanupW cmd err) v.
Proof.
  intros cmd err v H R Q. unfold sendRaw2W. xx. apply ww_base. apply walk_send; [by_base|assumption|assumption].
Qed.
Lemma xcommand_tls : forall cmd err v, P (LPuts (cstr cmd)) -> c_kind (v_c v) <> KPlain -> quit_ok P (proj v) ->
  wwalk P (sendCommandTLSW cleanupW cmd err) v.
Proof.
  intros cmd err v H K Q. unfold sendCommandTLSW. apply ww_getc. destruct (c_bio (v_c v)) eqn:E; xx.
  apply ww_base. apply walk_puts; [by_base|assumption|assumption|assumption].
Qed.
Lemma xcommand : forall cmd err v,
  (raw_command (v_c v) = true -> P (LSend (cstr cmd))) ->
  (raw_command (v_c v) = false -> P (LPuts (cstr cmd))) -> quit_ok P (proj v) ->
  wwalk P (sendCommandPtrW cleanupW cmd err) v.
Proof.
  intros cmd err v H1 H2 Q. unfold sendCommandPtrW, raw_command in *. apply ww_getc.
  destruct (c_rawptr (v_c v)) eqn:R; simpl in *; [apply xraw2; auto; left; assumption|].
  destruct (c_kind (v_c v)) eqn:K.
  - apply xraw2; auto. right. left. assumption.
  - apply xcommand_tls; auto. congruence.
  - apply xcommand_tls; auto. congruence.
Qed.
Lemma xraw3 : forall cmd err tmo v, P (LSend (cstr cmd)) -> clear_reason (v_c v) -> quit_ok P (proj v) ->
  wwalk P (sendRaw3W cmd err tmo) v.
Proof. intros cmd err tmo v H R Q. unfold sendRaw3W. xx. apply xraw2; assumption. Qed.

Lemma xfeedback : forall cmd err tmo v,
  (raw_feedback (v_c v) = true -> P (LSend (cstr cmd))) ->
  (raw_feedback (v_c v) = false -> P (LPuts (cstr cmd))) -> quit_ok P (proj v) ->
  wwalk P (sendFeedbackW cmd err tmo) v.
Proof.
  intros cmd err tmo v H1 H2 Q. unfold sendFeedbackW, raw_feedback in *. apply ww_getc.
  assert (T : c_kind (v_c v) <> KPlain ->
              (match c_bio (v_c v) with None => true | _ => false end = true -> P (LSend (cstr cmd))) ->
              (match c_bio (v_c v) with None => true | _ => false end = false -> P (LPuts (cstr cmd))) ->
              wwalk P (sendFeedbackTLSW cmd err tmo) v).
  { intros K X1 X2. unfold sendFeedbackTLSW. apply ww_getc. destruct (c_bio (v_c v)) eqn:E.
    - xx. apply ww_base. apply walk_puts; [by_base|assumption|assumption|auto].
    - apply xraw3; auto. right. right. assumption. }
  destruct (c_kind (v_c v)) eqn:K; [apply xraw3; auto; right; left; assumption|apply T; auto; discriminate|apply T; auto; discriminate].
Qed.
Lemma xfeedback_ptr : forall cmd err tmo v,
  (raw_feedback_ptr (v_c v) = true -> P (LSend (cstr cmd))) ->
  (raw_feedback_ptr (v_c v) = false -> P (LPuts (cstr cmd))) -> quit_ok P (proj v) ->
  wwalk P (sendFeedbackPtrW cmd err tmo) v.
Proof.
  intros cmd err tmo v H1 H2 Q. unfold sendFeedbackPtrW, raw_feedback_ptr in *. apply ww_getc.
  destruct (c_rawptr (v_c v)) eqn:R; [apply xraw3; auto; left; assumption|apply xfeedback; auto].
Qed.

(** A reply: nothing was torn down. *)
Lemma xraw_reply_resp : forall v code v', getRawCommandReplyW v = (Done code, v') -> code <> -1 ->
  c_resp (v_c v') <> None.
Proof.
  intros v code v' H C. unfold getRawCommandReplyW in H.
  apply wbind_done in H as (u1 & t1 & _ & H). apply wbind_done in H as (u2 & t2 & _ & H).
  apply wbind_done in H as ([[wait got] full] & t3 & _ & H). apply wbind_done in H as (u4 & t4 & _ & H).
  apply base_done in H as (s & H & ->). cbn [after v_c].
  destruct (_ || _); [|apply ret_done in H as [-> _]; congruence].
  apply bind_done in H as (u6 & t6 & H6 & H). apply bind_done in H as (u7 & t7 & H7 & H).
  apply ret_done in H as [_ ->]. destruct u7. apply logs_core in H7 as (_ & _ & _ & ->).
  inversion H6; subst. discriminate.
Qed.
Lemma xreply_resp : forall v code v', getServerReplyW v = (Done code, v') -> code <> -1 -> c_resp (v_c v') <> None.
Proof.
  intros v code v' H N. unfold getServerReplyW in H. apply wbind_done in H as (c & v1 & H1 & H).
  apply getc_done in H1 as [-> ->].
  destruct (c_kind (v_c v)); [eapply xraw_reply_resp; eauto| |];
    (apply base_done in H as (s & H & ->); apply reply_tls_resp in H; assumption).
Qed.

Lemma xraw3_reply : forall cmd err tmo v code v', sendRaw3W cmd err tmo v = (Done code, v') ->
  code <> err -> code <> tmo -> err <> 0 -> core (v_c v') = core (v_c v) /\ c_resp (v_c v') <> None.
Proof.
  intros cmd err tmo v code v' H N1 N2 N3. unfold sendRaw3W in H.
  apply wbind_done in H as (r & v1 & H1 & H).
  destruct (r =? 0) eqn:R; simpl in H; [|apply wret_done in H as [-> _]; congruence].
  apply wbind_done in H as (c & v2 & H2 & H).
  destruct (c =? -1) eqn:C; simpl in H.
  - apply wbind_done in H as (u & v3 & H3 & H). apply wret_done in H as [-> _]. congruence.
  - apply wret_done in H as [-> ->].
    assert (C1 : core (v_c v1) = core (v_c v)).
    { unfold sendRaw2W in H1. destruct (_ <? _)%N.
      { apply wbind_done in H1 as (u & v3 & _ & H1). apply wret_done in H1 as [-> _]. lia. }
      apply wbind_done in H1 as (w & v3 & H3 & H1).
      apply base_done in H3 as (s3 & H3 & ->). apply send_core in H3 as [H3 _].
      destruct w; try discriminate H1; try (apply wret_done in H1 as [_ ->]; cbn [after v_c]; rewrite H3; reflexivity).
      apply wbind_done in H1 as (u & v4 & _ & H1). apply wbind_done in H1 as (u' & v5 & _ & H1).
      apply wret_done in H1 as [-> _]. lia. }
    split.
    + rewrite <- C1. eapply ww_core; [|exact H2]. apply xraw_reply. auto.
    + eapply xraw_reply_resp; [exact H2|lia].
Qed.

Lemma xfeedback_reply : forall cmd err tmo v code v', sendFeedbackW cmd err tmo v = (Done code, v') ->
  code <> err -> code <> tmo -> err <> 0 -> core (v_c v') = core (v_c v) /\ c_resp (v_c v') <> None.
Proof.
  intros cmd err tmo v code v' H N1 N2 N3. unfold sendFeedbackW in H.
  apply wbind_done in H as (c & v1 & H1 & H). apply getc_done in H1 as [-> ->].
  assert (T : sendFeedbackTLSW cmd err tmo v = (Done code, v') ->
    core (v_c v') = core (v_c v) /\ c_resp (v_c v') <> None).
  { clear H. intros H. unfold sendFeedbackTLSW in H.
    apply wbind_done in H as (c & v1 & H1 & H). apply getc_done in H1 as [-> ->].
    destruct (c_bio (v_c v)) as [b|] eqn:E; [|eapply xraw3_reply; eauto].
    apply wbind_done in H as (w & v1 & H1 & H). apply base_done in H1 as (s1 & H1 & ->). apply puts_core in H1 as [H1 _].
    assert (X : core (v_c (after v s1)) = core (v_c v)) by (cbn [after v_c]; rewrite H1; reflexivity). rewrite <- X.
    destruct w; try discriminate H;
    try (apply wbind_done in H as (c & v2 & H2 & H); destruct (c =? -1) eqn:C; simpl in H;
         [apply wbind_done in H as (u & v3 & H3 & H); apply wret_done in H as [-> _]; congruence|
          apply wret_done in H as [-> ->]; split; [eapply ww_core; [|exact H2]; apply xreply; auto|
            eapply xreply_resp; [exact H2|lia]]]).
    apply wbind_done in H as (u & v4 & _ & H). apply wbind_done in H as (u' & v5 & _ & H).
    apply wret_done in H as [-> _]. congruence. }
  destruct (c_kind (v_c v)); auto. eapply xraw3_reply; eauto.
Qed.
Lemma xfeedback_ptr_reply : forall cmd err tmo v code v', sendFeedbackPtrW cmd err tmo v = (Done code, v') ->
  code <> err -> code <> tmo -> err <> 0 -> core (v_c v') = core (v_c v).
Proof.
  intros cmd err tmo v code v' H N1 N2 N3. unfold sendFeedbackPtrW in H.
  apply wbind_done in H as (c & v1 & H1 & H). apply getc_done in H1 as [-> ->].
  destruct (c_rawptr (v_c v)); [eapply xraw3_reply; eauto|eapply xfeedback_reply; eauto].
Qed.

(** ** EHLO *)

Hypothesis PA : P LAuth.

Lemma xauth_upd : forall o v, wwalk P (base (updc (set_auth o))) v.
Proof. intros. apply ww_base. eapply walk_updc; [apply es_auth|assumption]. Qed.

Lemma xehlo_loop : forall n tmo opts v, wwalk P (ehlo_loopW n tmo opts) v.
Proof.
  induction n as [|n IH]; intros tmo opts v; cbn [ehlo_loopW].
  - xx. apply xauth_upd.
  - destruct (containsAllOptions opts); [xx; apply xauth_upd|].
    apply ww_bind; [apply xreply; apply PQ|]. intros code v1 E S.
    destruct (code =? -1) eqn:C; [xx|]. destruct (negb (code =? 250)); [xx|]. apply ww_getc.
    assert (R := xreply_resp _ _ _ E ltac:(lia)). destruct (c_resp (v_c v1)); [apply IH|congruence].
Qed.

Lemma xehlo : forall err tmo v, err <> 0 -> err <> 250 -> tmo <> 250 ->
  (raw_feedback (v_c v) = true -> P (LSend EHLO)) ->
  (raw_feedback (v_c v) = false -> P (LPuts EHLO)) -> quit_ok P (proj v) ->
  wwalk P (ehlo_withW err tmo) v.
Proof.
  intros err tmo v N0 N1 N2 H1 H2 Q. unfold ehlo_withW. apply ww_bind; [apply xlogc; assumption|]. intros u v1 E1 S1.
  apply wlogc_core in E1 as (E1 & _). core_facts E1.
  apply ww_bind.
  - apply xfeedback; unfold raw_feedback in *; rewrite ?CFkind, ?CFbio; try assumption.
    eapply xquit; eauto.
  - intros code v2 E2 S2. destruct (code =? 250) eqn:C; cbn [negb]; [|apply ww_ret].
    apply xfeedback_reply in E2 as [_ E2]; try lia.
    apply ww_getc. destruct (c_resp (v_c v2)) eqn:R; [|congruence].
    apply ww_gete. apply xehlo_loop.
Qed.

Lemma xident : forall v,
  (raw_feedback (v_c v) = true -> P (LSend EHLO)) ->
  (raw_feedback (v_c v) = false -> P (LPuts EHLO)) -> quit_ok P (proj v) ->
  wwalk P sendServerIdentificationW v.
Proof. intros. apply xehlo; try assumption; discriminate. Qed.

Lemma xsecure_ident : forall v,
  (raw_feedback (v_c v) = true -> P (LSend EHLO)) ->
  (raw_feedback (v_c v) = false -> P (LPuts EHLO)) -> quit_ok P (proj v) ->
  wwalk P getServerSecureIdentificationW v.
Proof.
  intros v H1 H2 Q. unfold getServerSecureIdentificationW. apply ww_bind; [apply xlogc; assumption|].
  intros u v1 E1 S1. apply wlogc_core in E1 as (E1 & _). core_facts E1.
  apply xehlo; try discriminate; unfold raw_feedback in *; rewrite ?CFkind, ?CFbio; try assumption.
  eapply xquit; eauto.
Qed.

(** ** Authentication *)

Lemma xlog_then : forall {A} (m : W A) item v, quit_ok P (proj v) ->
  (forall v1, core (v_c v1) = core (v_c v) -> quit_ok P (proj v1) -> wwalk P m v1) -> wwalk P (base (logc item) ;;# m) v.
Proof.
  intros A m item v Q H. apply ww_bind; [apply xlogc; assumption|]. intros u v1 E1 S1.
  apply wlogc_core in E1 as (E1 & _). apply H; [assumption|eapply xquit; eauto].
Qed.

Lemma xauth_login : forall cr v,
  (forall d, In d [B "AUTH LOGIN" ++ CRLF; Encode (cr_user cr) ++ CRLF; Encode (cr_pass cr) ++ CRLF] -> route_ok P (v_c v) d) ->
  quit_ok P (proj v) -> wwalk P (authLoginW cr) v.
Proof.
  intros cr v H Q. unfold authLoginW. apply xlog_then; [assumption|]. intros v1 C1 Q1.
  assert (R1 := raw_feedback_ptr_core _ _ C1).
  apply ww_bind.
  { destruct (H (B "AUTH LOGIN" ++ CRLF)) as [X1 X2]; [left; reflexivity|].
    apply xfeedback_ptr; rewrite ?R1; assumption. }
  intros r1 v2 E2 S2. assert (Q2 := xquit _ _ S2 Q1).
  destruct (r1 =? STATUS_CODE_SERVER_CHALLENGE) eqn:B1; cbn [negb]; [|apply ww_ret].
  unfold STATUS_CODE_SERVER_CHALLENGE in *.
  apply xfeedback_ptr_reply in E2; try (unfold CLIENT_AUTHENTICATE_ERROR, CLIENT_AUTHENTICATE_TIMEOUT; lia).
  assert (R2 := raw_feedback_ptr_core _ _ E2). rewrite R1 in R2.
  apply ww_bind.
  { destruct (H (Encode (cr_user cr) ++ CRLF)) as [X1 X2]; [right; left; reflexivity|].
    apply xfeedback_ptr; rewrite ?R2; assumption. }
  intros r2 v3 E3 S3. assert (Q3 := xquit _ _ S3 Q2).
  destruct (r2 =? 334) eqn:B2; cbn [negb]; [|apply ww_ret].
  apply xfeedback_ptr_reply in E3; try (unfold CLIENT_AUTHENTICATE_ERROR, CLIENT_AUTHENTICATE_TIMEOUT; lia).
  assert (R3 := raw_feedback_ptr_core _ _ E3). rewrite R2 in R3.
  destruct (H (Encode (cr_pass cr) ++ CRLF)) as [X1 X2]; [right; right; left; reflexivity|].
  apply xfeedback_ptr; rewrite ?R3; assumption.
Qed.

Lemma xauth : forall v,
  (forall cr d, c_cred (v_c v) = Some cr -> In d (auth_lines cr) -> route_ok P (v_c v) d) ->
  quit_ok P (proj v) -> wwalk P authenticateClientW v.
Proof.
  intros v H Q. unfold authenticateClientW. apply ww_getc.
  destruct (c_cred (v_c v)) as [cr|] eqn:Ecr; [|apply ww_ret].
  destruct (c_auth (v_c v)) as [o|] eqn:Eau; [|apply xub; split; [assumption|cbn [bare s_c]; congruence]].
  assert (H' := fun d => H cr d eq_refl). clear H. rename H' into H.
  destruct (_ && _); [|destruct (_ && _); [|destruct (_ && _); [|apply ww_ret]]].
  - apply xlog_then; [assumption|]. intros v1 C1 Q1. assert (R1 := raw_feedback_ptr_core _ _ C1).
    destruct (H (plain_command cr)) as [X1 X2]; [left; reflexivity|].
    apply xfeedback_ptr; rewrite ?R1; assumption.
  - apply xauth_login; [|assumption]. intros d Hd. apply H. simpl in *. tauto.
  - apply xlog_then; [assumption|]. intros v1 C1 Q1. assert (R1 := raw_feedback_ptr_core _ _ C1).
    destruct (H (xoauth2_command cr)) as [X1 X2]; [simpl; tauto|].
    apply xfeedback_ptr; rewrite ?R1; assumption.
Qed.

Lemma xauth_if : forall v,
  (forall cr d, c_cred (v_c v) = Some cr -> In d (auth_lines cr) -> route_ok P (v_c v) d) ->
  quit_ok P (proj v) -> wwalk P authenticate_if_neededW v.
Proof.
  intros v H Q. unfold authenticate_if_neededW. apply ww_getc. destruct (c_cred (v_c v)) eqn:E; [|apply ww_ret].
  apply ww_bind; [apply xauth; [rewrite E; exact H|assumption]|]. intros. xx.
Qed.

(** ** TLS *)

Hypothesis PT : P LTls.

Lemma xctx_new : forall {A} (k : nat -> W A) v,
  (forall v1, v_c v1 = set_ctx (Some (e_next (v_e v))) (v_c v) -> steps P (proj v) (proj v1) -> wwalk P (k (e_next (v_e v))) v1) ->
  wwalk P (i <# base fresh_id ;; base (emit (EvCtxNew i);; updc (set_ctx (Some i))) ;;# k i) v.
Proof.
  intros A k v H.
  set (v1 := mkV (set_ctx (Some (e_next (v_e v))) (v_c v)) (v_on v) (set_next (S (e_next (v_e v))) (v_e v)) (v_w v)
    (v_t v ++ [WSock (EvCtxNew (e_next (v_e v)))])).
  assert (E : (i <# base fresh_id ;; base (emit (EvCtxNew i);; updc (set_ctx (Some i))) ;;# k i) v = k (e_next (v_e v)) v1).
  { unfold wbind, base, fresh_id, bind, gete, upde, emit, updc, ret. cbn [fst snd s_c s_e s_t v_c v_on v_e v_w v_t map app].
    rewrite app_nil_r. reflexivity. }
  assert (S1 : steps P (proj v) (proj v1)).
  { eapply steps_one; [|exact PT]. unfold proj, v1. cbn [v_c v_e v_t]. rewrite socks_app. apply (es_ctx_new (proj v)). }
  destruct (H v1 eq_refl S1) as [W1 W2].
  unfold wwalk. rewrite E. split; [eapply steps_trans; [exact S1|exact W1]|exact W2].
Qed.
Lemma xbio_new : forall {A} (k : nat -> client -> W A) v,
  (forall v1, v_c v1 = set_bio (Some (mkBio (e_next (v_e v)) (c_sock (v_c v)))) (v_c v) -> steps P (proj v) (proj v1) ->
     wwalk P (k (e_next (v_e v)) (v_c v)) v1) ->
  wwalk P (b <# base fresh_id ;; c <# base getc ;;
           base (emit (EvBioNew b (c_sock c));; updc (set_bio (Some (mkBio b (c_sock c))))) ;;# k b c) v.
Proof.
  intros A k v H.
  set (v1 := mkV (set_bio (Some (mkBio (e_next (v_e v)) (c_sock (v_c v)))) (v_c v)) (v_on v) (set_next (S (e_next (v_e v))) (v_e v)) (v_w v)
    (v_t v ++ [WSock (EvBioNew (e_next (v_e v)) (c_sock (v_c v)))])).
  assert (E : (b <# base fresh_id ;; c <# base getc ;;
           base (emit (EvBioNew b (c_sock c));; updc (set_bio (Some (mkBio b (c_sock c))))) ;;# k b c) v = k (e_next (v_e v)) (v_c v) v1).
  { unfold wbind, base, fresh_id, bind, gete, getc, upde, emit, updc, ret. cbn [fst snd s_c s_e s_t v_c v_on v_e v_w v_t map app].
    rewrite !app_nil_r. reflexivity. }
  assert (S1 : steps P (proj v) (proj v1)).
  { eapply steps_one; [|exact PT]. unfold proj, v1. cbn [v_c v_e v_t]. rewrite socks_app. apply (es_bio_new (proj v)). }
  destruct (H v1 eq_refl S1) as [W1 W2].
  unfold wwalk. rewrite E. split; [eapply steps_trans; [exact S1|exact W1]|exact W2].
Qed.

Lemma xtls_event : forall {A} (m : W A) ev b v, c_bio (v_c v) = Some b -> tls_event (v_c v) ev -> quit_ok P (proj v) ->
  (forall v1, c_bio (v_c v1) = Some b -> quit_ok P (proj v1) -> wwalk P m v1) -> wwalk P (base (emit ev) ;;# m) v.
Proof.
  intros A m ev b v Hb T Q H. apply ww_bind; [apply ww_base; eapply walk_emit; [apply es_tls; exact T|assumption]|].
  intros u v1 E1 S1. apply H; [inversion E1; exact Hb|eapply xquit; eauto].
Qed.
Lemma xtls_log : forall {A} (m : W A) item prefix b v, c_bio (v_c v) = Some b -> quit_ok P (proj v) ->
  (forall v1, c_bio (v_c v1) = Some b -> quit_ok P (proj v1) -> wwalk P m v1) -> wwalk P (base (addLog item prefix) ;;# m) v.
Proof.
  intros A m item prefix b v Hb Q H. apply ww_bind; [apply xaddLog; assumption|]. intros u v1 E1 S1.
  apply waddLog_core in E1 as (E1 & _). core_facts E1. apply H; [congruence|eapply xquit; eauto].
Qed.

Lemma xtls : forall v, quit_ok P (proj v) -> wwalk P startTLSNegotiationW v.
Proof.
  intros v Q. unfold startTLSNegotiationW. apply xlog_then; [assumption|]. intros v1 C1 Q1.
  apply ww_gete. destruct (e_tls (v_e v1)) as [|t l] eqn:E; [apply xblocked|].
  apply ww_bind; [apply ww_base; apply walk_upde; [env_tac|by_base]|]. intros u v2 E2 S2. assert (Q2 := xquit _ _ S2 Q1).
  destruct (negb (t_ctx t)).
  { xx. apply ww_base. apply walk_bind; [eapply walk_updc; [apply es_ctx_none|assumption]|]. intros. apply werrno. assumption. }
  apply xctx_new. intros v3 C3 S3. assert (Q3 := xquit _ _ S3 Q2).
  destruct (negb (t_bio t)).
  { xx. apply ww_base. eapply walk_updc; [apply es_bio_none|assumption]. }
  apply xbio_new. intros v4 C4 S4. assert (Q4 := xquit _ _ S4 Q3).
  destruct (c_server (v_c v3)) as [name|] eqn:N.
  2:{ apply xub. simpl. rewrite C4. exact N. }
  destruct (SERVERNAMEANDPORT_LENGTH <? slen name + 1 + slen (dec_of_N (c_port (v_c v3))) + 1)%N eqn:L.
  { apply xub. simpl. exists name. rewrite C4. split; [exact N|].
    change (c_port (set_bio (Some {| bio_id := e_next (v_e v3); bio_fd := c_sock (v_c v3) |}) (v_c v3)))
      with (c_port (v_c v3)). unfold SERVERNAMEANDPORT_LENGTH in L. lia. }
  set (b := mkBio (e_next (v_e v3)) (c_sock (v_c v3))) in *.
  assert (B4 : c_bio (v_c v4) = Some b) by (rewrite C4; reflexivity).
  change (e_next (v_e v3)) with (bio_id b). clear C4. clearbody b.
  apply ww_bind; [xs_silent|]. intros st v5 E5 S5. assert (Q5 := xquit _ _ S5 Q4).
  assert (B5 : c_bio (v_c v5) = Some b).
  { rewrite <- B4. unfold next in E5. destruct (x_store (v_w v4)); inversion E5; reflexivity. }
  apply ww_bind; [xs_silent|]. intros u' v6 E6 S6. assert (Q6 := xquit _ _ S6 Q5).
  assert (B6 : c_bio (v_c v6) = Some b) by (inversion E6; exact B5).
  destruct st; [xx|]. destruct (negb (t_connect t)).
  { eapply xtls_event; [exact B6|constructor; exact B6|exact Q6|]. intros v7 _ Q7. xx. }
  eapply xtls_log; [exact B6|exact Q6|]. intros v7 B7 Q7.
  eapply xtls_event; [exact B7|constructor; exact B7|exact Q7|]. intros v8 B8 Q8.
  destruct (negb (t_handshake t)); [xx|].
  eapply xtls_log; [exact B8|exact Q8|]. intros v9 B9 Q9.
  eapply xtls_event; [exact B9|constructor; exact B9|exact Q9|]. intros v10 B10 Q10.
  destruct (negb (t_cert t)); [xx|].
  eapply xtls_event; [exact B10|constructor; exact B10|exact Q10|]. intros v11 _ Q11. xx.
Qed.
End Walks.
