(** Opportunistic clients: what is written in clear, before and after the
    upgrade; the decision of the TLS negotiation. *)

From Coq Require Import Ascii String List NArith ZArith Bool Lia ZifyBool ZifyNat ZifyN.
From Verif Require Import Base Lib ModelUtil ModelBase64 ModelAddress ModelAttachment
  ModelErrors ModelReply ModelMessage ModelState ModelClient ModelWorld SpecAddress
  ProofSteps ProofWalk ProofPhases ProofEstablish ProofLog ProofSend ProofWorld SpecMime SpecTls ProofAddress ProofMime ProofTls.
Import ListNotations.
Open Scope Z_scope.

(** ** After a handshake nothing is written in clear *)

Definition only_zero (t : list event) : Prop := forall t1 fd d r t2, t = t1 ++ EvSend fd d r :: t2 ->
  fd = 0 /\ exists b, In (EvBioFree b) t1.

Lemma app_mid : forall {A} (a b t1 : list A) x t2, a ++ b = t1 ++ x :: t2 ->
  (exists l, a = t1 ++ x :: l /\ t2 = l ++ b) \/ (exists l, t1 = a ++ l /\ b = l ++ x :: t2).
Proof.
  intros A a. induction a as [|y a IH]; intros b t1 x t2 H.
  - right. exists t1. auto.
  - destruct t1 as [|z t1]; simpl in H; inversion H; subst.
    + left. exists a. auto.
    + destruct (IH _ _ _ _ H2) as [(l & -> & ->)|(l & -> & ->)]; [left|right]; exists l; auto.
Qed.

Lemma after_handshake : forall ta tb tc t1 b ok t2, no_handshake ta -> writes_nothing tb -> only_zero tc -> no_handshake tc ->
  ta ++ tb ++ tc = t1 ++ EvHandshake b ok :: t2 -> only_zero t2.
Proof.
  intros ta tb tc t1 b ok t2 Ha Hb Hc Hn E u1 fd d r u2 E2. subst t2.
  apply app_mid in E as [(l & -> & _)|(l & -> & E)].
  { exfalso. apply (Ha (EvHandshake b ok)). apply in_or_app. right. left. reflexivity. }
  apply app_mid in E as [(l' & -> & E)|(l' & -> & E)].
  2:{ exfalso. apply (Hn (EvHandshake b ok)). rewrite E. apply in_or_app. right. left. reflexivity. }
  symmetry in E. apply app_mid in E as [(k & -> & E)|(k & -> & E)].
  - exfalso. apply (Hb (EvSend fd d r)). apply in_or_app. right. right. apply in_or_app. right. left. reflexivity.
  - destruct (Hc _ _ _ _ _ E) as [H (b' & H')]. split; [assumption|]. exists b'. apply in_or_app. auto.
Qed.

Lemma secure_tls : ~ secure_nc LTls.
Proof. intros [H|[H|[H|[[d H]|[d H]]]]]; try discriminate H. exact H. Qed.
Lemma clear_tls : forall fs m, ~ clear_any fs m LTls.
Proof.
  intros fs m [H|H]; [discriminate H|]. unfold clear_nc in H. simpl in H. intuition (try discriminate).
  destruct H0 as (d & [X|X] & _); discriminate X.
Qed.

Lemma secured_no_handshake : forall s s', secured s s' -> exists t, s_t s' = s_t s ++ t /\ no_handshake t.
Proof.
  intros s s' (s1 & S1 & H). destruct (steps_no_handshake _ _ _ secure_tls S1) as (t1 & T1 & W1).
  destruct H as [->|[_ S2]]; [eauto|]. destruct (steps_no_handshake _ _ _ secure_tls S2) as (t2 & T2 & W2).
  exists (t1 ++ t2). simpl in T2. rewrite T2, T1, app_assoc. split; [reflexivity|].
  intros x Hx. apply in_app_or in Hx as [Hx|Hx]; [apply W1|apply W2]; exact Hx.
Qed.

Definition always (b : nat) (t : list event) : Prop := True.

Lemma kept_session : forall m s t, c_kind (s_c s) <> KPlain -> c_rawptr (s_c s) = false -> c_keep (s_c s) = false ->
  c_conn (s_c s) = true -> c_bio (s_c s) <> None -> s_t (snd (sendMail m s)) = s_t s ++ t -> only_zero t.
Proof.
  intros m s t K R Kp C B T. assert (S := secured_old m s C).
  destruct (steps_sealed always (s_t s) _ _ ltac:(intros; exact I) S) as (_ & _ & _ & t' & T' & O & _).
  - split; [exact K|]. split; [exact R|]. split; [exact Kp|]. exists []. split; [symmetry; apply app_nil_r|].
    split; [apply quiet_secure; intros x []|]. left. simpl. destruct (c_bio (s_c s)) as [b|]; [|congruence]. exists b. split; [reflexivity|exact I].
  - rewrite T in T'. apply app_inv_head in T'. subst t'. exact (proj1 O).
Qed.

Lemma upgraded : forall m s t t1 b ok t2, c_kind (s_c s) = KOpp -> c_rawptr (s_c s) = false -> c_keep (s_c s) = false ->
  s_t (snd (sendMail m s)) = s_t s ++ t -> t = t1 ++ EvHandshake b ok :: t2 -> only_zero t2.
Proof.
  intros m s t t1 b ok t2 K R Kp T E. destruct (c_conn (s_c s)) eqn:C.
  - exfalso. assert (S := secured_old m s C). destruct (steps_no_handshake _ _ _ secure_tls S) as (t' & T' & W).
    simpl in T'. rewrite T in T'. apply app_inv_head in T'. subst. apply (W (EvHandshake b ok)). apply in_or_app. right. left. reflexivity.
  - destruct (opp_phases m s K C) as (s1 & S1 & H).
    destruct (steps_no_handshake _ _ _ (clear_tls _ _) S1) as (ta & Ta & Na).
    assert (Nil : only_zero []) by (intros u1 * X; destruct u1; discriminate X).
    assert (Nil' : no_handshake []) by (intros x []).
    destruct H as [H|(s2 & S2 & H)].
    + rewrite H, Ta in T. apply app_inv_head in T. subst t.
      eapply (after_handshake ta [] []); eauto; [intros x []|]. rewrite app_nil_r. exact E.
    + destruct (steps_silent _ _ _ negotiating_silent S2) as (tb & Tb & Wb). destruct H as [H|[Ss S3]].
      * rewrite H, Tb, Ta, <- app_assoc in T. apply app_inv_head in T. subst t.
        eapply (after_handshake ta tb []); eauto. rewrite app_nil_r. exact E.
      * destruct Ss as (C2 & K2 & R2 & Kp2 & b2 & B2 & _).
        assert (L : sealed always (s_t s2) s2).
        { split; [congruence|]. split; [congruence|]. split; [congruence|]. exists []. split; [symmetry; apply app_nil_r|].
          split; [apply quiet_secure; intros x []|]. left. exists b2. split; [assumption|exact I]. }
        apply (secured_sealed always _ _ _ (fun _ _ _ _ => I) S3) in L as (_ & _ & _ & tc & Tc & O & _).
        destruct (secured_no_handshake _ _ S3) as (tc' & Tc' & Nc).
        assert (tc' = tc) by (eapply app_inv_head; rewrite <- Tc; symmetry; exact Tc'). subst tc'.
        rewrite Tc, Tb, Ta, <- !app_assoc in T. apply app_inv_head in T. subst t.
        eapply (after_handshake ta tb tc); eauto. exact (proj1 O).
Qed.

(** ** Credentials never travel in clear *)

Definition bare (fs : filesystem) (m : message) (l : label) : Prop :=
  match l with
  | LSend d => d = EHLO \/ exists x, tx_line fs m x /\ d = cstr x
  | _ => True
  end.

Lemma field_line : forall name l, header_line name (generateHeaderAddressValues l) =
  (name ++ B ": " ++ join (B ", ") (map show_address l)) ++ CRLF.
Proof.
  intros name l. unfold header_line. rewrite header_values_join, <- !app_assoc.
  replace (map address_str l) with (map show_address l); [reflexivity|]. apply map_ext. intros a.
  unfold show_address, address_str. destruct (a_name a); rewrite <- ?app_assoc; reflexivity.
Qed.
Lemma bare_line : forall fs m x, tx_line fs m x -> clear_line fs m x.
Proof.
  intros fs m x H. destruct H.
  - unfold mail_formats in H. simpl in H. destruct H as [<-|[<-|[<-|[]]]];
      [apply cl_from|apply cl_from_name|apply cl_from_bare].
  - apply cl_rcpt. simpl in H. unfold listed. destruct H as [->|[->|[->|[]]]]; 
      apply in_or_app; [left; assumption|right|right]; apply in_or_app; [left|right]; assumption.
  - apply cl_data.
  - assert (E : header_line (B "From") (address_str (m_from m)) = (B "From: " ++ show_address (m_from m)) ++ CRLF).
    { unfold header_line, address_str, show_address. destruct (a_name (m_from m)); rewrite <- ?app_assoc; reflexivity. }
    rewrite E. apply cl_header. left. reflexivity.
  - rewrite field_line. apply cl_header. unfold header_fields. apply in_or_app. right. apply in_or_app. left.
    rewrite H. unfold listed, address_field. destruct l; [congruence|]. left. reflexivity.
  - rewrite field_line. apply cl_header. unfold header_fields. apply in_or_app. right. apply in_or_app. right. apply in_or_app. left.
    rewrite H. unfold listed, address_field. destruct l; [congruence|]. left. reflexivity.
  - change (header_line (B "Subject") (m_subject m)) with (B "Subject: " ++ m_subject m ++ CRLF). rewrite app_assoc.
    apply cl_header. unfold header_fields. apply in_or_app. right. apply in_or_app. right. apply in_or_app. right. left. reflexivity.
  - apply (cl_last_header fs m (B "Content-Type: multipart/related; boundary=sep")).
    unfold header_fields. apply in_or_app. right. apply in_or_app. right. apply in_or_app. right. right. left. reflexivity.
  - apply body_real_eq in H. subst body. destruct (in_split _ _ H0) as (l1 & l2 & E).
    apply cl_body with (before := concat l1) (after := concat l2).
    transitivity (concat (l1 ++ d :: l2)); [|rewrite concat_app; reflexivity].
    rewrite <- E. symmetry. apply body_chunks_spec.
  - apply cl_end.
  - apply cl_quit.
Qed.

Definition bare_nc (fs : filesystem) (m : message) (l : label) : Prop := bare fs m l /\ l <> LConn.
Lemma bare_base : forall fs m l, base l -> bare_nc fs m l.
Proof. intros fs m l H. split; destruct l; simpl in *; try tauto; discriminate. Qed.
Lemma bare_conn : forall fs m, ~ bare_nc fs m LConn.
Proof. intros fs m [_ H]. apply H. reflexivity. Qed.
Lemma bare_finish : forall m r s, walk (bare (e_fs (s_e s)) m) (finish m r) s.
Proof.
  intros m r s. eapply walk_mono; [apply clear_finish|]. intros l [->|H]; [exact I|].
  unfold clear_nc in H. destruct l; simpl; try exact I. simpl in H. intuition (try discriminate).
  destruct H0 as (x & [X|X] & H); inversion X; subst; assumption.
Qed.
Lemma bare_send : forall m s, c_kind (s_c s) <> KPlain -> c_rawptr (s_c s) = false -> walk (bare (e_fs (s_e s)) m) (sendMail m) s.
Proof.
  intros m s K R. unfold walk. destruct (c_conn (s_c s)) eqn:C.
  - rewrite sendMail_old by assumption. exact (bare_finish m 0 s).
  - rewrite sendMail_new by assumption.
    change (walk (bare (e_fs (s_e s)) m) (r <- establish;; finish m r) s). apply walk_bind.
    + apply walk_mono with (P := bare_nc (e_fs (s_e s)) m); [|intros l [H _]; exact H].
      apply westablish; try exact (bare_base _ _); try apply bare_conn; try assumption.
      all: try (split; [exact I|discriminate]).
      * split; [left; reflexivity|discriminate].
      * intros cr d _ _. split; [intros [X|X]; congruence|]. intros. split; [exact I|discriminate].
    + intros r s1 _ S1. rewrite <- (steps_fs _ _ _ S1). apply bare_finish.
Qed.
Lemma bare_destroy : forall m s, walk (bare (e_fs (s_e s)) m) destroy s.
Proof.
  intros m s. unfold destroy. apply walk_bind; [|intros; apply walk_ret].
  apply walk_mono with (P := bare_nc (e_fs (s_e s)) m); [|intros l [H _]; exact H].
  apply wcleanup; [apply bare_base|]. intros _. split; (split; [|discriminate]).
  - right. exists QUIT. split; [apply tl_quit|]. reflexivity.
  - exact I.
Qed.

Definition bare_event (fs : filesystem) (m : message) (ev : event) : Prop :=
  match ev with EvSend _ d _ => exists x, clear_line fs m x /\ d = cstr x | _ => True end.
Lemma bare_events : forall fs m s s', steps (bare fs m) s s' ->
  exists t, s_t s' = s_t s ++ t /\ forall ev, In ev t -> bare_event fs m ev.
Proof.
  intros fs m s s' H. induction H.
  - exists []. split; [symmetry; apply app_nil_r|]. intros x [].
  - assert (E : exists t, s_t s2 = s_t s1 ++ t /\ forall ev, In ev t -> bare_event fs m ev).
    { destruct l; try (destruct (estep_silent _ _ _ H) as (t & T & W); [exact (fun x => x)|]; exists t; split; [exact T|];
        intros ev Hev; specialize (W ev Hev); destruct ev; simpl; tauto).
      - inversion H; subst. exists [EvSend (c_sock (s_c s1)) d r]. split; [reflexivity|]. intros ev [<-|[]]. simpl.
        destruct H0 as [->|(x & X & ->)]; [exists EHLO; split; [apply cl_ehlo|reflexivity]|].
        exists x. split; [apply bare_line; assumption|reflexivity].
      - inversion H; subst. eexists. split; [reflexivity|]. intros ev [<-|[]]. exact I.
      - inversion H; subst. eexists. split; [reflexivity|]. intros ev [<-|[]]. simpl.
        exists STARTTLS. split; [apply cl_starttls|reflexivity]. }
    destruct E as (t1 & E1 & W1). destruct IHsteps as (t2 & E2 & W2).
    exists (t1 ++ t2). rewrite E2, E1, <- app_assoc. split; [reflexivity|].
    intros ev Hx. apply in_app_or in Hx as [Hx|Hx]; auto.
Qed.

(** The same for an operation of a program. *)
Lemma bare_op : forall i c m o w x w' t fd d r, get_client w i = Some c -> c_kind c <> KPlain -> c_rawptr c = false ->
  o = OSend i m \/ o = ODestroy i -> step o w = (x, w') -> w_trace w' = w_trace w ++ t -> In (EvSend fd d r) t ->
  exists line, clear_line (e_fs (w_env w)) m line /\ d = cstr line.
Proof.
  intros i c m o w x w' t fd d r G K R U S T Hin.
  assert (E : exists t', w_trace w' = w_trace w ++ t' /\ forall ev, In ev t' -> bare_event (e_fs (w_env w)) m ev).
  { apply step_effect in S as [[E _]|[(j & m' & c' & -> & G' & _ & _ & E)|(j & c' & -> & G' & _ & _ & E)]].
    - exists []. split; [rewrite app_nil_r; exact E|]. intros ev [].
    - destruct U as [U|U]; inversion U; subst. rewrite G in G'. inversion G'; subst. rewrite E.
      eapply (bare_events _ _ (mkSt c' (w_env w) (w_trace w))). apply (bare_send m (mkSt c' (w_env w) (w_trace w)) K R).
    - destruct U as [U|U]; inversion U; subst. rewrite G in G'. inversion G'; subst. rewrite E.
      eapply (bare_events _ _ (mkSt c' (w_env w) (w_trace w))). apply (bare_destroy m (mkSt c' (w_env w) (w_trace w))). }
  destruct E as (t' & T' & W). rewrite T in T'. apply app_inv_head in T'. subst t'. exact (W _ Hin).
Qed.

(** ** The decision of the negotiation *)

Lemma tls_decision : forall s code s', startTLSNegotiation s = (Done code, s') ->
  exists r l, e_tls (s_e s) = r :: l /\
    (code = 0 <-> tls_acceptable (c_selfsigned (s_c s)) r) /\ (code <> 0 -> code = tls_error r).
Proof.
  intros s code s' H. unfold startTLSNegotiation in H.
  apply bind_done in H as (u & s1 & H1 & H). destruct u. apply logc_core in H1 as (H1 & HE1 & _).
  unfold bind at 1, gete in H. rewrite HE1 in H. destruct (e_tls (s_e s)) as [|t l]; [discriminate H|].
  exists t, l. split; [reflexivity|]. unfold tls_acceptable, tls_error.
  assert (Fail : forall c x, code = x -> x <> 0 -> ~ (c : Prop) -> (code = 0 <-> c) /\ (code <> 0 -> code = x)).
  { intros c x -> Hx Hc. split; [tauto|auto]. }
  apply bind_done in H as (u2 & s2 & H2 & H). inversion H2; subst. clear H2.
  destruct (t_ctx t); cbn [negb] in H |- *.
  2:{ apply bind_done in H as (? & ? & _ & H). apply bind_done in H as (? & ? & _ & H).
      apply ret_done in H as [H _]. apply Fail; [exact H|discriminate|intuition discriminate]. }
  apply bind_done in H as (i & s3 & H3 & H). inversion H3; subst. clear H3.
  apply bind_done in H as (u4 & s4 & H4 & H). inversion H4; subst. clear H4.
  apply bind_done in H as (u5 & s5 & H5 & H). inversion H5; subst. clear H5.
  destruct (t_bio t); cbn [negb] in H |- *.
  2:{ apply bind_done in H as (? & ? & _ & H). apply ret_done in H as [H _].
      apply Fail; [exact H|discriminate|intuition discriminate]. }
  apply bind_done in H as (i6 & s6 & H6 & H). inversion H6; subst. clear H6.
  unfold bind at 1, getc in H.
  apply bind_done in H as (u7 & s7 & H7 & H). inversion H7; subst. clear H7.
  apply bind_done in H as (u8 & s8 & H8 & H). inversion H8; subst. clear H8.
  cbn [s_c s_e s_t] in H.
  match type of H with match ?x with _ => _ end _ = _ => destruct x; [|discriminate H] end.
  match type of H with (if ?x then _ else _) _ = _ => destruct x; [discriminate H|] end.
  destruct (t_paths t); cbn [negb] in H |- *.
  2:{ apply ret_done in H as [H _]. apply Fail; [exact H|discriminate|intuition discriminate]. }
  destruct (t_connect t); cbn [negb] in H |- *.
  2:{ apply bind_done in H as (? & ? & _ & H). apply bind_done in H as (? & ? & _ & H).
      apply bind_done in H as (? & ? & _ & H). apply ret_done in H as [H _].
      apply Fail; [exact H|discriminate|intuition discriminate]. }
  apply bind_done in H as (u9 & s9 & H9 & H). destruct u9. apply addLog_core in H9 as (C9 & E9 & T9 & _).
  cbn [s_c s_e s_t] in C9.
  apply bind_done in H as (u10 & s10 & H10 & H). apply emit_done in H10. 
  destruct (t_handshake t); cbn [negb] in H |- *.
  2:{ apply bind_done in H as (? & ? & _ & H). apply bind_done in H as (? & ? & _ & H).
      apply ret_done in H as [H _]. apply Fail; [exact H|discriminate|intuition discriminate]. }
  apply bind_done in H as (u11 & s11 & H11 & H). destruct u11. apply addLog_core in H11 as (C11 & _).
  apply bind_done in H as (u12 & s12 & H12 & H). apply emit_done in H12.
  destruct (t_cert t); cbn [negb] in H |- *.
  2:{ apply bind_done in H as (? & ? & _ & H). apply ret_done in H as [H _].
      apply Fail; [exact H|discriminate|intuition discriminate]. }
  apply bind_done in H as (u13 & s13 & H13 & H). apply emit_done in H13.
  unfold bind at 1, getc in H. subst s13 s12 s10. cbn [ev_state s_c s_e s_t] in *.
  assert (Sf : c_selfsigned (s_c s11) = c_selfsigned (s_c s)).
  { core_facts C11. core_facts C9. core_facts H1. rewrite CFself, CFself0. exact CFself1. }
  rewrite Sf in H. unfold X509_V_ERR_DEPTH_ZERO_SELF_SIGNED_CERT, X509_V_OK in H.
  destruct ((t_verify t =? 18) && c_selfsigned (s_c s)) eqn:V.
  { apply bind_done in H as (? & ? & _ & H). apply bind_done in H as (? & ? & _ & H). apply ret_done in H as [-> _].
    split; [|congruence]. split; [|auto]. intros _. apply andb_prop in V as [V1 V2]. repeat split; auto. right. split; [lia|assumption]. }
  destruct (t_verify t =? 0) eqn:V0; cbn [negb] in H.
  { apply bind_done in H as (? & ? & _ & H). apply ret_done in H as [-> _].
    split; [|congruence]. split; [|auto]. intros _. repeat split; auto. left. lia. }
  apply bind_done in H as (? & ? & _ & H). apply bind_done in H as (? & ? & _ & H). apply bind_done in H as (? & ? & _ & H).
  apply ret_done in H as [H _]. apply Fail; [exact H|discriminate|].
  intros (_ & _ & _ & _ & _ & _ & [X|[X Y]]); [lia|]. rewrite Y, andb_true_r in V. lia.
Qed.

(** The TLS outcomes are consumed by the negotiation only. *)
Definition keeps {A} (m : M A) : Prop := forall s, e_tls (s_e (snd (m s))) = e_tls (s_e s).
Lemma keeps_bind : forall {A C} (m : M A) (k : A -> M C), keeps m -> (forall a, keeps (k a)) -> keeps (bind m k).
Proof.
  intros A C m k H K s. unfold bind. specialize (H s). destruct (m s) as [o s1]. destruct o; auto.
  rewrite <- H. apply K.
Qed.
Lemma keeps_bindc : forall {C} (k : client -> M C), (forall a, keeps (k a)) -> keeps (bind getc k).
Proof. intros. apply keeps_bind; [intros s; reflexivity|assumption]. Qed.
Lemma keeps_log : forall item p, keeps (addLog item p).
Proof.
  intros item p s. unfold addLog, bind, getc. destruct (c_log (s_c s)); [|reflexivity]. cbv zeta.
  repeat match goal with |- context [if ?b then _ else _] => destruct b end; reflexivity.
Qed.
Ltac keep_step :=
  match goal with
  | |- keeps (bind _ _) => apply keeps_bind; [|intros]
  | |- keeps (addLog _ _) => apply keeps_log
  | |- keeps (logc _) => apply keeps_log
  | |- keeps (logs _) => apply keeps_log
  | |- keeps (match ?x with _ => _ end) => destruct x
  | |- keeps (if ?x then _ else _) => destruct x
  | |- keeps _ => (intros ?; reflexivity)
  end.
Lemma keeps_errno : forall e, keeps (log_errno e).
Proof. intros. unfold log_errno. repeat keep_step. Qed.
Lemma keeps_fcntl : forall m, keeps (sys_fcntl m).
Proof. intros. unfold sys_fcntl. repeat keep_step. Qed.
Ltac keep_step ::=
  lazymatch goal with
  | |- keeps (bind _ _) => apply keeps_bind; [|intros]
  | |- keeps (logc _) => apply keeps_log
  | |- keeps (log_errno _) => apply keeps_errno
  | |- keeps (sys_fcntl _) => apply keeps_fcntl
  | |- keeps (match ?x with _ => _ end) => destruct x
  | |- keeps (if ?x then _ else _) => destruct x
  | |- keeps _ => (intros ?; reflexivity)
  end.
Lemma keeps_nonblocking : keeps setSocketToNonBlocking.
Proof. unfold setSocketToNonBlocking. repeat keep_step. Qed.
Lemma keeps_blocking : keeps setSocketToBlocking.
Proof. unfold setSocketToBlocking. repeat keep_step. Qed.
Lemma keeps_wait : keeps wait_connect.
Proof. unfold wait_connect. repeat keep_step. Qed.
Lemma keeps_connect : keeps sys_connect.
Proof. unfold sys_connect. repeat keep_step. Qed.
Lemma keeps_host : forall n, keeps (sys_gethostbyname n).
Proof. intros n. unfold sys_gethostbyname. repeat keep_step. Qed.
Ltac keep_step ::=
  lazymatch goal with
  | |- keeps (bind _ _) => apply keeps_bind; [|intros]
  | |- keeps (logc _) => apply keeps_log
  | |- keeps (log_errno _) => apply keeps_errno
  | |- keeps setSocketToNonBlocking => apply keeps_nonblocking
  | |- keeps setSocketToBlocking => apply keeps_blocking
  | |- keeps wait_connect => apply keeps_wait
  | |- keeps sys_connect => apply keeps_connect
  | |- keeps (sys_gethostbyname _) => apply keeps_host
  | |- keeps (match ?x with _ => _ end) => destruct x
  | |- keeps (if ?x then _ else _) => destruct x
  | |- keeps _ => (intros ?; reflexivity)
  end.
Lemma keeps_initialize : keeps initializeSession.
Proof. unfold initializeSession, initializeSessionPOSIX. repeat keep_step. Qed.

Lemma forced_verdict : forall m s code s' r l,
  c_kind (s_c s) = KForced -> c_conn (s_c s) = false -> e_tls (s_e s) = r :: l ->
  ~ tls_acceptable (c_selfsigned (s_c s)) r -> sendMail m s = (Done code, s') ->
  code <> 0 /\ (exists t, s_t s' = s_t s ++ t /\ writes_nothing t) /\ (code = tls_error r \/ e_tls (s_e s') = r :: l).
Proof.
  intros m s code s' r l K C E N H.
  assert (Ph := forced_phases m s K C). rewrite sendMail_new in H by assumption.
  unfold establish in H. apply bind_done in H as (x & sx & Hx & H). unfold bind, getc in Hx. rewrite K in Hx.
  unfold establishForced in Hx. apply bind_done in Hx as (i & s1 & Hi & Hx).
  assert (E1 := keeps_initialize s). rewrite Hi in E1. cbn [snd] in E1.
  assert (Wi := winitialize opening opening_base (or_intror (or_introl eq_refl)) (or_intror (or_intror (or_introl eq_refl))) (or_intror (or_intror (or_intror eq_refl))) s).
  destruct Wi as [Wi _]. rewrite Hi in Wi. cbn [snd] in Wi.
  destruct (steps_silent _ _ _ opening_silent Wi) as (t1 & T1 & W1).
  destruct (i =? 0) eqn:I; cbn [negb] in Hx.
  2:{ apply ret_done in Hx as [-> ->]. unfold finish in H. rewrite I in H. cbn [negb] in H.
      apply ret_done in H as [-> ->]. split; [lia|]. split; [eauto|]. right. congruence. }
  assert (Cf := initialize_core _ _ _ Hi). destruct Cf as [Cf _]. apply core_s_fields in Cf.
  apply bind_done in Hx as (t & s2 & Ht & Hx).
  destruct (tls_decision _ _ _ Ht) as (r' & l' & E' & D1 & D2). rewrite E1, E in E'. inversion E'; subst r' l'.
  replace (c_selfsigned (s_c s1)) with (c_selfsigned (s_c s)) in D1 by intuition congruence.
  assert (T0 : t <> 0) by tauto.
  replace (t =? 0) with false in Hx by lia. cbn [negb] in Hx. apply ret_done in Hx as [-> ->].
  unfold finish in H. replace (t =? 0) with false in H by lia. cbn [negb] in H. apply ret_done in H as [-> ->].
  split; [exact T0|]. split; [|left; auto].
  assert (Wt : walk negotiating startTLSNegotiation s1).
  { apply wtls; [apply negotiating_base|apply negotiating_conn|right; reflexivity|].
    intros X. replace (c_conn (s_c s1)) with false in X by intuition congruence. rewrite andb_false_r in X. discriminate X. }
  destruct Wt as [Wt _]. rewrite Ht in Wt. cbn [snd] in Wt.
  destruct (steps_silent _ _ _ negotiating_silent Wt) as (t2 & T2 & W2).
  exists (t1 ++ t2). rewrite T2, T1, app_assoc. split; [reflexivity|].
  intros y Hy. apply in_app_or in Hy as [Hy|Hy]; [apply W1|apply W2]; exact Hy.
Qed.

(** ** In a program *)

Lemma step_send : forall i c m w x w', get_client w i = Some c -> step (OSend i m) w = (x, w') ->
  x = fst (sendMail m (mkSt c (w_env w) (w_trace w))) /\ w_env w' = s_e (snd (sendMail m (mkSt c (w_env w) (w_trace w)))) /\
  w_trace w' = s_t (snd (sendMail m (mkSt c (w_env w) (w_trace w)))) /\
  get_client w' i = Some (s_c (snd (sendMail m (mkSt c (w_env w) (w_trace w))))).
Proof.
  intros i c m w x w' G S. simpl in S. unfold run_on in S. rewrite G in S.
  destruct (sendMail m (mkSt c (w_env w) (w_trace w))) as [o s]. inversion S; subst. simpl. repeat split.
  unfold get_client in *. simpl. rewrite nth_list_set.
  destruct (nth_error (w_clients w) i) eqn:E; [|discriminate G].
  rewrite Nat.eqb_refl. destruct (Nat.ltb_spec i (length (w_clients w))); [reflexivity|].
  apply nth_error_None in H. congruence.
Qed.

Lemma world_kept : forall i c m w x w' t, get_client w i = Some c -> c_kind c <> KPlain -> encrypts c ->
  c_conn c = true -> c_bio c <> None -> step (OSend i m) w = (x, w') -> w_trace w' = w_trace w ++ t -> only_zero t.
Proof.
  intros i c m w x w' t G K [E1 E2] C B S T. destruct (step_send _ _ _ _ _ _ G S) as (_ & _ & T' & _). rewrite T' in T.
  exact (kept_session m (mkSt c (w_env w) (w_trace w)) t K E2 E1 C B T).
Qed.
Lemma world_upgraded : forall i c m w x w' t1 b ok t2, get_client w i = Some c -> c_kind c = KOpp -> encrypts c ->
  step (OSend i m) w = (x, w') -> w_trace w' = w_trace w ++ t1 ++ EvHandshake b ok :: t2 -> only_zero t2.
Proof.
  intros i c m w x w' t1 b ok t2 G K [E1 E2] S T. destruct (step_send _ _ _ _ _ _ G S) as (_ & _ & T' & _). rewrite T' in T.
  exact (upgraded m (mkSt c (w_env w) (w_trace w)) _ t1 b ok t2 K E2 E1 T eq_refl).
Qed.
Lemma world_verdict : forall i c m w code w' r l t,
  get_client w i = Some c -> c_kind c = KForced -> c_conn c = false -> e_tls (w_env w) = r :: l ->
  ~ tls_acceptable (c_selfsigned c) r ->
  step (OSend i m) w = (Done code, w') -> w_trace w' = w_trace w ++ t ->
  code <> 0 /\ (forall fd d n, ~ In (EvSend fd d n) t) /\ (forall b d n, ~ In (EvPuts b d n) t) /\
  (code = tls_error r \/ e_tls (w_env w') = r :: l).
Proof.
  intros i c m w code w' r l t G K C E N S T. destruct (step_send _ _ _ _ _ _ G S) as (X & Ee & T' & _).
  destruct (sendMail m (mkSt c (w_env w) (w_trace w))) as [o s'] eqn:Q. simpl in X, Ee, T'. subst o.
  destruct (forced_verdict m (mkSt c (w_env w) (w_trace w)) code s' r l K C E N Q) as (H1 & (t' & T1 & W) & H2).
  simpl in T1. rewrite <- T', T in T1. apply app_inv_head in T1. subst t'. rewrite Ee.
  repeat split; auto; intros; intros Hin; exact (W _ Hin).
Qed.
