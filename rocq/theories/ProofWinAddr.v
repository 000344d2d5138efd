(** Which address the Windows build connects to. *)

From Coq Require Import Ascii String List NArith ZArith Bool Lia ZifyBool ZifyNat ZifyN.
From Verif Require Import Base Lib ModelUtil ModelBase64 ModelAddress ModelAttachment
  ModelErrors ModelReply ModelMessage ModelState ModelClient ModelWorld
  ProofSteps ProofWalk ProofPhases ProofEstablish ProofLog ProofSend ProofWorld ProofConn2
  ModelWin SpecWin ProofWin2 ProofWin3 ProofWinRef ProofWinRef2 ProofWinRef3 ProofWinRef4 ProofWinEv
  ProofWinWalk ProofWinWalk2 ProofWinEst SpecWinSafe ProofWinSafe ProofWinTls ProofWinTls2.
Import ListNotations.
Open Scope Z_scope.

(** No call of getaddrinfo. *)
Definition noaddr (ev : wevent) : Prop := match ev with WAddr _ _ _ => False | _ => True end.
Lemma base_noaddr {A} (m : M A) : only noaddr (base m).
Proof.
  intros v. unfold base. destruct (m _) as [o s]. cbn. exists (map WSock (s_t s)). split; [reflexivity|]. apply Forall_map, Forall_forall. intros; exact Logic.I.
Qed.
Lemma msg_noaddr er : only noaddr (addWSAMessage er).
Proof. intros v. unfold addWSAMessage. destruct (x_format (v_w v) er); [apply base_noaddr|]. exists []. rewrite app_nil_r. auto. Qed.
Ltac an := repeat match goal with
  | |- only _ (wbind _ _) => apply only_bind; [|intros ?]
  | |- only _ (base _) => apply base_noaddr
  | |- only _ (wret _) => apply only_same; reflexivity
  | |- only _ (set_on _) => apply only_same; reflexivity
  | |- only _ get_on => apply only_same; reflexivity
  | |- only _ (next _ _ _) => apply only_next
  | |- only _ (wput _) => apply only_put; exact Logic.I
  | |- only _ (addWSAMessage _) => apply msg_noaddr
  | H : only _ ?m |- only _ ?m => exact H
  | |- only _ (match ?x with _ => _ end) => destruct x
  end.
Lemma a_o_doclean : only noaddr doWSACleanup. Proof. unfold doWSACleanup. an. Qed.
Lemma a_o_raw_reply : only noaddr getRawCommandReplyW.
Proof. unfold getRawCommandReplyW, setSocketMode. an. Qed.
Lemma a_o_reply : only noaddr getServerReplyW.
Proof. unfold getServerReplyW. pose proof a_o_raw_reply. an. Qed.
Lemma a_o_ptr cw cmd err : only noaddr cw -> only noaddr (sendCommandPtrW cw cmd err).
Proof. intros H. unfold sendCommandPtrW, sendRaw2W, sendCommandTLSW. an. Qed.
Lemma a_o_quit cw : only noaddr cw -> only noaddr (sendQuitW cw).
Proof. intros H. unfold sendQuitW. pose proof (fun a b => a_o_ptr cw a b H). an. apply H0. Qed.
Lemma a_o_cleanup_f n : only noaddr (cleanup_fW n).
Proof.
  induction n as [|n IH]; cbn [cleanup_fW]; [an|]. pose proof (a_o_quit _ IH). pose proof a_o_doclean.
  unfold close_socketW, release_winsock. an.
Qed.
Lemma a_o_cleanup : only noaddr cleanupW.
Proof. intros v. apply a_o_cleanup_f. Qed.
Lemma a_o_raw3 cmd err tm : only noaddr (sendRaw3W cmd err tm).
Proof. unfold sendRaw3W, sendRaw2W. pose proof a_o_cleanup. pose proof a_o_raw_reply. an. Qed.
Lemma a_o_feed cmd err tm : only noaddr (sendFeedbackW cmd err tm).
Proof. unfold sendFeedbackW, sendFeedbackTLSW. pose proof a_o_cleanup. pose proof a_o_reply. pose proof (a_o_raw3 cmd err tm). an. Qed.
Lemma a_o_feedptr cmd err tm : only noaddr (sendFeedbackPtrW cmd err tm).
Proof. unfold sendFeedbackPtrW. pose proof (a_o_feed cmd err tm). pose proof (a_o_raw3 cmd err tm). an. Qed.
Lemma a_o_cptr cmd err : only noaddr (sendCommandPtrW cleanupW cmd err).
Proof. apply a_o_ptr, a_o_cleanup. Qed.
Ltac aw := repeat match goal with
  | |- only _ (sendFeedbackPtrW _ _ _) => apply a_o_feedptr
  | |- only _ (sendFeedbackW _ _ _) => apply a_o_feed
  | |- only _ (sendRaw3W _ _ _) => apply a_o_raw3
  | |- only _ (sendCommandPtrW cleanupW _ _) => apply a_o_cptr
  | |- only _ (sendQuitW cleanupW) => apply a_o_quit, a_o_cleanup
  | |- only _ cleanupW => apply a_o_cleanup
  | |- only _ getServerReplyW => apply a_o_reply
  | |- only _ (wret _) => apply only_same; reflexivity
  | |- only _ (base _) => apply base_noaddr
  | |- only _ (wbind _ _) => apply only_bind; [|intros ?]
  | |- only _ (match ?x with _ => _ end) => destruct x
  end.
Lemma a_o_ehlo_loop n tc : forall op, only noaddr (ehlo_loopW n tc op).
Proof. induction n as [|n IH]; intros op; cbn [ehlo_loopW]; aw. apply IH. Qed.
Lemma a_o_ehlo err tm : only noaddr (ehlo_withW err tm).
Proof. unfold ehlo_withW. aw. apply a_o_ehlo_loop. Qed.
Lemma a_o_secure : only noaddr getServerSecureIdentificationW.
Proof. unfold getServerSecureIdentificationW. aw. apply a_o_ehlo. Qed.
Lemma a_o_auth_if : only noaddr authenticate_if_neededW.
Proof. unfold authenticate_if_neededW, authenticateClientW, authPlainW, authLoginW, authXOauth2W. aw. Qed.
Lemma a_o_mail_from l : forall z, only noaddr (mail_from_loopW l z).
Proof. induction l as [|f l IH]; intros z; cbn [mail_from_loopW]; aw. apply IH. Qed.
Lemma a_o_add_rcpt l : forall z, only noaddr (addMailRecipientsW l z).
Proof. induction l as [|f l IH]; intros z; cbn [addMailRecipientsW]; aw; apply IH. Qed.
Lemma a_o_rcpts l : only noaddr (recipients_loopW l).
Proof. induction l as [|a l IH]; cbn [recipients_loopW]; [aw|]. destruct a; [apply IH|]. apply only_bind; [apply a_o_add_rcpt|]. intros. destruct (negb _); [aw|apply IH]. Qed.
Lemma a_o_chunks l err : only noaddr (send_chunksW l err).
Proof. induction l as [|x l IH]; cbn [send_chunksW]; aw. apply IH. Qed.
Lemma a_o_transaction m : only noaddr (mail_transactionW m).
Proof.
  unfold mail_transactionW. apply only_bind; [unfold setMailRecipientsW; apply only_bind; [apply a_o_mail_from|]; intros; destruct (negb _); [aw|apply a_o_rcpts]|]. intros r.
  destruct (negb _); [aw|]. apply only_bind; [unfold setMailHeadersW, addMailHeaderW, address_headerW, addMailHeaderW; aw|].
  intros h. destruct (negb _); [aw|]. apply only_bind; [unfold setMailBodyW; aw; apply a_o_chunks|]. intros b. aw.
Qed.
Lemma a_o_connected m : only noaddr (connected_part m).
Proof. unfold connected_part. apply only_bind; [apply base_noaddr|]. intros. apply a_o_transaction. Qed.


Lemma a_startTLS : only noaddr startTLSNegotiationW.
Proof. unfold startTLSNegotiationW. pose proof a_o_cleanup. an. Qed.
Lemma a_upgrade : only noaddr upgradeToSecureConnectionW.
Proof. unfold upgradeToSecureConnectionW. aw. Qed.
Ltac az := repeat match goal with
  | |- only _ (wbind _ _) => apply only_bind; [|intros ?]
  | |- only _ (base _) => apply base_noaddr
  | |- only _ (wret _) => apply only_same; reflexivity
  | |- only _ startTLSNegotiationW => apply a_startTLS
  | |- only _ upgradeToSecureConnectionW => apply a_upgrade
  | |- only _ sendServerIdentificationW => unfold sendServerIdentificationW; apply a_o_ehlo
  | |- only _ (ehlo_withW _ _) => apply a_o_ehlo
  | |- only _ getServerSecureIdentificationW => apply a_o_secure
  | |- only _ authenticate_if_neededW => apply a_o_auth_if
  | |- only _ (match ?x with _ => _ end) => destruct x
  end.
Lemma a_rest k : only noaddr (rest k).
Proof. destruct k; cbn [rest]; unfold rest_plain, rest_opp, rest_forced; az. Qed.
Lemma a_finish m r : only noaddr (finishW m r).
Proof. unfold finishW. destruct (negb _); [az|]. apply a_o_connected. Qed.

(** The calls of getaddrinfo name the client's server and port. *)
Definition addr_ok (c : client) (ev : wevent) : Prop :=
  match ev with WAddr h p _ => h = c_server c /\ p = c_port c | _ => True end.
Lemma noaddr_ok : forall c t, Forall noaddr t -> Forall (addr_ok c) t.
Proof. intros c t H. eapply Forall_impl; [|exact H]. intros [] X; cbn in *; tauto. Qed.

Lemma addr_cat : forall {A C} (m : W A) (k : A -> W C) v t, v_t (snd (m v)) = v_t v ++ t -> (forall a, only noaddr (k a)) ->
  exists t', v_t (snd (wbind m k v)) = v_t v ++ t ++ t' /\ Forall noaddr t'.
Proof.
  intros A C m k v t T H. unfold wbind. destruct (m v) as [o v1]. cbn [snd] in T.
  destruct o; try (exists []; cbn [snd]; rewrite app_nil_r; split; [exact T|constructor]).
  destruct (H a v1) as (t' & T' & F). exists t'. rewrite T', T, app_assoc. split; [reflexivity|exact F].
Qed.

(** initializeSessionWinSock after getaddrinfo. *)
Definition after_addr (c : client) (ga : Z) : W Z :=
  if negb (ga =? 0) then
    addWSAMessage ga ;;#
    base (setLastSocketErrNo ga) ;;#
    doWSACleanup ;;#
    wret SOCKET_INIT_SESSION_WINSOCKET_GETADDRINFO_ERROR
  else
    e <# base gete ;;
    match e_sock e with
    | [] => base blocked
    | SkErr er :: l =>
        base (upde (set_esock l);; emit (EvSocket (SkErr er));; updc (set_sock (-1))) ;;#
        addWSAMessage er ;;#
        base (setLastSocketErrNo er) ;;#
        doWSACleanup ;;#
        wret SOCKET_INIT_SESSION_CREATION_ERROR
    | SkFd n :: l =>
        base (upde (set_esock l);; emit (EvSocket (SkFd n));; updc (set_sock (Z.of_N n))) ;;#
        match c_server c with
        | None => base (fail_ub (UB_NullDeref PServer))
        | Some name =>
            base (logc (B "Trying to connect to " ++ name ++ B " on port " ++ dec_of_N (c_port c))) ;;#
            r <# base sys_connect ;;
            match r with
            | None => wret 0
            | Some er =>
                addWSAMessage er ;;#
                base (setLastSocketErrNo er) ;;#
                doWSACleanup ;;#
                wret SOCKET_INIT_SESSION_CONNECT_ERROR
            end
        end
    end.
Lemma after_noaddr : forall c ga, only noaddr (after_addr c ga).
Proof. intros c ga. unfold after_addr. pose proof a_o_doclean. an. Qed.
Lemma config_port : forall c c', config c' = config c -> c_port c' = c_port c.
Proof. intros c c' H. unfold config in H. congruence. Qed.
Lemma after_done : forall c ga v v', after_addr c ga v = (Done 0, v') ->
  ga = 0 /\ exists fd t, v_t v' = v_t v ++ t /\ In (WSock (EvConnect fd (c_port (v_c v) mod 65536)%N true)) t.
Proof.
  intros c ga v v' H. unfold after_addr in H. destruct (Z.eqb_spec ga 0) as [->|N]; cbn [negb] in H.
  2:{ apply wbind_done in H as (? & ? & _ & H). apply wbind_done in H as (? & ? & _ & H). apply wbind_done in H as (? & ? & _ & H).
      apply wret_done in H as [H _]. discriminate H. }
  split; [reflexivity|].
  apply wbind_done in H as (e & v1 & X & H). apply gete_done in X as [-> ->].
  destruct (e_sock (v_e v)) as [|[n|er] l]; [apply base_done in H as (? & H & _); discriminate H| |].
  2:{ do 4 (apply wbind_done in H as (? & ? & _ & H)). apply wret_done in H as [H _]. discriminate H. }
  apply wbind_done in H as (u2 & v2 & H2 & H). apply base_done in H2 as (s2 & H2 & ->). inversion H2; subst. clear H2.
  destruct (c_server c) as [name|]; [|apply base_done in H as (? & H & _); discriminate H].
  apply wbind_done in H as (u3 & v3 & H3 & H). apply wlogc_core in H3 as (C3 & E3 & T3 & _).
  apply wbind_done in H as (r & v4 & H4 & H). destruct r as [er|].
  { do 3 (apply wbind_done in H as (? & ? & _ & H)). apply wret_done in H as [H _]. discriminate H. }
  apply wret_done in H as [_ ->]. apply base_done in H4 as (s4 & H4 & ->).
  assert (P3 : c_port (v_c v3) = c_port (v_c v)) by (core_facts C3; exact CFport).
  assert (X : s_t s4 = [EvConnect (c_sock (v_c v3)) (c_port (v_c v) mod 65536)%N true]).
  { unfold sys_connect, bind at 1 2, getc, gete in H4. cbn [bare s_e s_c] in H4. rewrite P3 in H4.
    destruct (e_conn (v_e v3)) as [|[er|] l']; unfold bind, upde, emit, ret in H4; inversion H4; reflexivity. }
  unfold after in *. cbn [v_t v_c bare s_t s_c] in *. rewrite T3, X, <- app_assoc. eexists _, _. split; [reflexivity|].
  apply in_or_app. right. left. reflexivity.
Qed.

(** What the trace of initializeSession, started by [qt] for [qc], contains. *)
Definition opened (qc : client) (qt : list wevent) (p : outcome Z * vst) : Prop :=
  exists t, v_t (snd p) = qt ++ t /\ Forall (addr_ok qc) t /\
  (fst p = Done 0 -> In (WAddr (c_server qc) (c_port qc) 0) t /\
    exists fd, In (WSock (EvConnect fd (c_port qc mod 65536)%N true)) t).
Lemma bind_next : forall {A C} (f : wenv -> list A) g d (k : A -> W C) c o e w t,
  exists a w', wbind (next f g d) k (mkV c o e w t) = k a (mkV c o e w' t).
Proof. intros. unfold wbind, next. cbn [v_w]. destruct (f w); eexists _, _; reflexivity. Qed.
Lemma open_addr : forall v, opened (v_c v) (v_t v) (initializeSessionWinSock v).
Proof.
  intros [qc qo qe qw qt]. cbn [v_c v_t].
  change (opened qc qt ((st <# next x_start set_xstart 0;;
    wput (WStartup st);;# (if negb (st =? 0) then
      base (setLastSocketErrNo st);;# base (logc (B "WSAStartup failed with error: " ++ dec_of_N (Z.to_N st)));;#
      wret SOCKET_INIT_SESSION_WINSOCKET_STARTUP_ERROR
    else set_on true;;# (c <# base getc;; ga <# next x_addr set_xaddr 0;; wput (WAddr (c_server c) (c_port c) ga);;# after_addr c ga)))
    (mkV qc qo qe qw qt))).
  match goal with |- opened _ _ (wbind (next ?f ?g ?d) ?k _) => destruct (bind_next f g d k qc qo qe qw qt) as (st & w1 & ->) end.
  unfold wbind at 1. unfold wput at 1. cbn [v_c v_on v_e v_w v_t]. destruct (Z.eqb_spec st 0) as [->|N]; cbn [negb].
  2:{ assert (O : only noaddr (base (setLastSocketErrNo st);;# base (logc (B "WSAStartup failed with error: " ++ dec_of_N (Z.to_N st)));;#
        wret SOCKET_INIT_SESSION_WINSOCKET_STARTUP_ERROR)) by an.
      destruct (O (mkV qc qo qe w1 (qt ++ [WStartup st]))) as (t & T & F). exists (WStartup st :: t). rewrite T. cbn [v_t]. rewrite <- app_assoc.
      split; [reflexivity|]. split; [constructor; [exact Logic.I|apply noaddr_ok; exact F]|].
      intros H. exfalso. match type of H with fst (?m ?v) = _ => destruct (m v) as [o v'] eqn:E end. cbn [fst] in H. subst o.
      apply wbind_done in E as (? & ? & _ & E). apply wbind_done in E as (? & ? & _ & E). apply wret_done in E as [E _]. discriminate E. }
  unfold wbind at 1. unfold set_on at 1. cbn [v_c v_on v_e v_w v_t]. rewrite wbind_getc. cbn [v_c].
  match goal with |- opened _ _ (wbind (next ?f ?g ?d) ?k (mkV ?a ?b ?c ?x ?y)) => destruct (bind_next f g d k a b c x y) as (ga & w2 & ->) end.
  unfold wbind, wput. cbn [v_c v_on v_e v_w v_t].
  destruct (after_noaddr qc ga (mkV qc true qe w2 ((qt ++ [WStartup 0]) ++ [WAddr (c_server qc) (c_port qc) ga]))) as (t & T & F).
  exists (WStartup 0 :: WAddr (c_server qc) (c_port qc) ga :: t). rewrite T. cbn [v_t]. rewrite <- !app_assoc. split; [reflexivity|].
  split; [constructor; [exact Logic.I|constructor; [split; reflexivity|apply noaddr_ok; exact F]]|].
  intros H. match type of H with fst (?m ?v) = _ => destruct (m v) as [o v'] eqn:E end. cbn [fst snd] in H. rewrite app_assoc in E. rewrite E in T. cbn [snd] in T. subst o.
  apply after_done in E as (-> & fd & t2 & T2 & In2). cbn [v_t v_c] in T2, In2, T. rewrite T in T2. apply app_inv_head in T2. subst t2.
  split; [right; left; reflexivity|]. exists fd. right. right. exact In2.
Qed.
Lemma init_addr : forall v, opened (v_c v) (v_t v) (initializeSessionW v).
Proof.
  intros v. set (v0 := after v (mkSt (set_log (Some (mkLog [] INITIAL_COMM_LOG_LENGTH)) INITIAL_COMM_LOG_LENGTH (v_c v)) (v_e v) [])).
  change (initializeSessionW v) with (initializeSessionWinSock v0).
  pose proof (open_addr v0) as H. unfold opened in *. cbn [v0 after v_t v_c s_t s_c map] in H. rewrite app_nil_r in H. exact H.
Qed.

Lemma send_addr : forall m v, exists t, v_t (snd (sendMailW m v)) = v_t v ++ t /\ Forall (addr_ok (v_c v)) t /\
  (c_conn (v_c v) = false -> fst (sendMailW m v) = Done 0 -> In (WAddr (c_server (v_c v)) (c_port (v_c v)) 0) t /\
    exists fd, In (WSock (EvConnect fd (c_port (v_c v) mod 65536)%N true)) t).
Proof.
  intros m v. destruct (c_conn (v_c v)) eqn:C.
  - rewrite sendMailW_old by assumption. destruct (a_o_connected m v) as (t & T & F). exists t. split; [exact T|].
    split; [apply noaddr_ok; exact F|]. discriminate.
  - rewrite sendMailW_new by assumption. destruct (init_addr v) as (t & T & F & D).
    assert (E : (r <# establishW;; finishW m r) v =
      (r1 <# initializeSessionW;; (r <# (if negb (r1 =? 0) then wret r1 else rest (c_kind (v_c v)));; finishW m r)) v).
    { unfold wbind at 1. rewrite establish_eq. unfold wbind. destruct (initializeSessionW v) as [[r1| | | | |] v1]; reflexivity. }
    rewrite E. clear E.
    destruct (addr_cat initializeSessionW (fun r1 => r <# (if negb (r1 =? 0) then wret r1 else rest (c_kind (v_c v)));; finishW m r) v t T) as (t' & T' & F').
    { intros r1. apply only_bind; [destruct (negb _); [az|apply a_rest]|intros; apply a_finish]. }
    exists (t ++ t'). split; [exact T'|]. split; [apply Forall_app; split; [exact F|apply noaddr_ok; exact F']|].
    intros _ H. assert (R : fst (initializeSessionW v) = Done 0).
    { unfold wbind at 1 in H. destruct (initializeSessionW v) as [o v1]. destruct o; try discriminate H. cbn [fst].
      destruct (Z.eqb_spec a 0) as [->|N]; [reflexivity|]. exfalso. cbn [negb] in H. rewrite wret_bind, finishW_stop in H by assumption.
      cbn [fst] in H. congruence. }
    destruct (D R) as (D1 & fd & D2). split; [apply in_or_app; auto|]. exists fd. apply in_or_app. auto.
Qed.

Lemma wworld_target : forall i c m w x w' t, get_client (ww w) i = Some c ->
  wstep (OSend i m) w = (x, w') -> ww_trace w' = ww_trace w ++ t -> forall ev, In ev t ->
  match ev with
  | WAddr h p _ => h = c_server c /\ p = c_port c
  | WSock (EvConnect _ p _) => p = (c_port c mod 65536)%N /\ ((c_port c < 65536)%N -> p = c_port c)
  | _ => True
  end.
Proof.
  intros i c m w x w' t G S T ev Hin.
  apply (run_onW_some i (sendMailW m) Some w c) in S as (_ & _ & _ & T' & _); [|assumption].
  destruct (send_addr m (wview w i c)) as (t1 & T1 & F & _). cbn [wview v_t v_c] in T1, F. rewrite <- T', T in T1. apply app_inv_head in T1. subst t1.
  rewrite Forall_forall in F. specialize (F ev Hin). destruct ev as [ev|?|?|h q g| |? ? ?|?|?| |?]; try exact Logic.I; try exact F.
  destruct ev; try exact Logic.I.
  destruct (sendMailW_walk m (wview w i c)) as [W _]. apply steps_target in W as (t2 & T2 & F2). cbn [proj wview s_t s_c v_t v_c] in T2, F2.
  rewrite <- T', T in T2. unfold socks in T2. rewrite flat_map_app in T2. apply app_inv_head in T2.
  rewrite Forall_forall in F2. match goal with |- ?p = _ /\ _ => assert (E : p = (c_port c mod 65536)%N) end.
  { match goal with H : In (WSock ?e) t |- _ => assert (In e t2) as I2 by (rewrite <- T2; apply in_flat_map; exists (WSock e); split; [exact H|left; reflexivity]) end.
    exact (F2 _ I2). }
  split; [exact E|]. intros L. rewrite E. apply N.mod_small, L.
Qed.
Lemma wworld_connects : forall i c m w w' t, get_client (ww w) i = Some c -> c_conn c = false ->
  wstep (OSend i m) w = (Done 0, w') -> ww_trace w' = ww_trace w ++ t ->
  In (WAddr (c_server c) (c_port c) 0) t /\ exists fd, In (WSock (EvConnect fd (c_port c mod 65536)%N true)) t.
Proof.
  intros i c m w w' t G C S T.
  apply (run_onW_some i (sendMailW m) Some w c) in S as (X & _ & _ & T' & _); [|assumption].
  destruct (send_addr m (wview w i c)) as (t1 & T1 & _ & D). cbn [wview v_t v_c] in T1, D. rewrite <- T', T in T1. apply app_inv_head in T1. subst t1.
  apply D; [exact C|symmetry; exact X].
Qed.
