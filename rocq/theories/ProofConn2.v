(** Opening the session, seen from a send. *)

From Coq Require Import Ascii String List NArith ZArith Bool Lia ZifyBool ZifyNat ZifyN.
From Verif Require Import Base Lib ModelUtil ModelAddress ModelAttachment ModelMessage ModelReply ModelErrors ModelState ModelClient ModelWorld
  SpecAddress SpecReply SpecErrors SpecDialogue SpecConn
  ProofReply ProofErrors ProofSteps ProofWalk ProofPhases ProofEstablish ProofSend ProofWorld ProofTls2 ProofDialogue ProofMail ProofMail2 ProofMail4 ProofConn ProofCode ProofTime.
Import ListNotations.
Open Scope Z_scope.

(** ** C52 *)
Definition target_ok (c : client) (ev : event) : Prop :=
  match ev with
  | EvConnect _ p _ => p = (c_port c mod 65536)%N
  | EvResolve h _ => c_server c = Some h
  | _ => True
  end.
Lemma estep_target : forall l s s', estep l s s' -> exists t, s_t s' = s_t s ++ t /\ Forall (target_ok (s_c s)) t.
Proof.
  intros l s s' H. destruct H; try (exists []; split; [symmetry; apply app_nil_r|constructor]);
    try (eexists; split; [reflexivity|]; repeat constructor; fail).
  - exists []. apply addLog_core in H as (_ & _ & H & _). rewrite H, app_nil_r. split; [reflexivity|constructor].
  - exists [ev]. split; [reflexivity|]. repeat constructor. destruct H; cbn; auto.
  - unfold teardown. destruct (c_kind (s_c s)); cbn [s_t]; (eexists; split; [reflexivity|]);
      destruct (c_sock (s_c s) =? 0); try destruct (c_ctx (s_c s)); try destruct (c_bio (s_c s)); cbn [app]; repeat constructor.
  - exists [ev]. split; [reflexivity|]. repeat constructor. destruct H; exact I.
  - exists [ev]. split; [reflexivity|]. repeat constructor. destruct H; exact I.
Qed.
Lemma steps_target : forall P s s', steps P s s' -> exists t, s_t s' = s_t s ++ t /\ Forall (target_ok (s_c s)) t.
Proof.
  intros P s s' H. induction H as [s|l s1 s2 s3 E _ _ (t2 & T2 & F2)]; [exists []; split; [symmetry; apply app_nil_r|constructor]|].
  destruct (estep_target _ _ _ E) as (t1 & T1 & F1). exists (t1 ++ t2). split; [rewrite T2, T1, app_assoc; reflexivity|].
  apply Forall_app. split; [exact F1|]. eapply Forall_impl; [|exact F2]. intros ev. assert (C := estep_config _ _ _ E). unfold config in C.
  inversion C. unfold target_ok. destruct ev; intros X; try exact I; congruence.
Qed.
Lemma world_target : forall i c m w x w' t, get_client w i = Some c -> step (OSend i m) w = (x, w') -> w_trace w' = w_trace w ++ t ->
  forall ev, In ev t -> target_ok c ev.
Proof.
  intros i c m w x w' t G S T ev I. destruct (step_send _ _ _ _ _ _ G S) as (_ & _ & T' & _).
  destruct (sendMail_walk m (mkSt c (w_env w) (w_trace w))) as [W _]. apply steps_target in W as (t2 & T2 & F). cbn [s_t s_c] in *.
  rewrite T', T2 in T. apply app_inv_head in T. subst t2. rewrite Forall_forall in F. exact (F ev I).
Qed.
Lemma bind_ext : forall {A C} (m : M A) (k : A -> M C) s0 s x s', bind m k s = (Done x, s') -> grows m -> ext s0 s ->
  exists a s1, m s = (Done a, s1) /\ k a s1 = (Done x, s') /\ ext s0 s1.
Proof.
  intros A C m k s0 s x s' H G E. apply bind_done in H as (a & s1 & H1 & H). exists a, s1. split; [exact H1|]. split; [exact H|].
  specialize (G s). rewrite H1 in G. exact (ext_trans _ _ _ E G).
Qed.
Lemma session_connects : forall s s', initializeSession s = (Done 0, s') ->
  exists fd p ok t, s_t s' = s_t s ++ t /\ In (EvConnect fd p ok) t.
Proof.
  intros s0 s' H. unfold initializeSession in H.
  apply (bind_ext _ _ s0) in H as (u0 & s & _ & H & E0); [|apply grows_updc|apply ext_refl].
  unfold initializeSessionPOSIX in H. apply (bind_ext _ _ s0) in H as (e & s1 & _ & H & E1); [|apply grows_gete0|exact E0].
  destruct (e_sock e) as [|[n|er] l]; [discriminate H| |].
  2:{ repeat (apply bind_done in H as (? & ? & _ & H)). apply ret_done in H as [H _]. discriminate H. }
  apply (bind_ext _ _ s0) in H as (u2 & s2 & _ & H & E2); [|apply grows_upde|exact E1].
  apply (bind_ext _ _ s0) in H as (u3 & s3 & _ & H & E3); [|apply grows_emit|exact E2].
  apply (bind_ext _ _ s0) in H as (u4 & s4 & _ & H & E4); [|apply grows_updc|exact E3].
  apply (bind_ext _ _ s0) in H as (c & s5 & _ & H & E5); [|apply grows_getc0|exact E4].
  destruct (c_server c) as [name|]; [|discriminate H].
  apply (bind_ext _ _ s0) in H as (h & s6 & _ & H & E6); [|apply grows_resolve|exact E5].
  destruct h as [len|]; [|discriminate H]. destruct (len <? 0); [discriminate H|]. destruct (4 <? len); [discriminate H|].
  apply (bind_ext _ _ s0) in H as (nb & s7 & _ & H & E7); [|apply grows_nonblocking|exact E6].
  destruct (negb _); [discriminate H|].
  apply (bind_ext _ _ s0) in H as (u8 & s8 & _ & H & E8); [|apply grows_logc|exact E7].
  apply bind_done in H as (r & s9 & H9 & H).
  assert (X : exists fd p ok, s_t s9 = s_t s8 ++ [EvConnect fd p ok]).
  { unfold sys_connect, bind at 1 2, getc, gete in H9. destruct (e_conn (s_e s8)); unfold bind, upde, emit, ret in H9;
      apply pair_equal_spec in H9 as [_ <-]; eexists _, _, _; reflexivity. }
  destruct X as (fd & p & ok & X). exists fd, p, ok. destruct E8 as [t8 E8].
  assert (G : ext s9 s').
  { destruct r as [er|].
    - destruct (er =? EINPROGRESS).
      + apply (bind_ext _ _ s9) in H as (w & s10 & _ & H & E10); [|apply grows_wait_connect|apply ext_refl].
        destruct (w =? 0); [|apply ret_done in H as [_ ->]; exact E10]. assert (G := grows_blocking s10). rewrite H in G. exact (ext_trans _ _ _ E10 G).
      + assert (G : grows (log_errno er;; ret SOCKET_INIT_SESSION_CONNECT_ERROR)) by (unfold log_errno; gs).
        specialize (G s9). rewrite H in G. exact G.
    - assert (G := grows_blocking s9). rewrite H in G. exact G. }
  destruct G as [t9 G]. exists (t8 ++ [EvConnect fd p ok] ++ t9). split; [rewrite G, X, E8, <- !app_assoc; reflexivity|].
  apply in_or_app. right. left. reflexivity.
Qed.
Lemma establish_session : forall s r s', establish s = (Done r, s') ->
  exists r1 s1, initializeSession s = (Done r1, s1) /\ ext s1 s' /\ (r1 <> 0 -> r = r1 /\ s' = s1).
Proof.
  intros s r s' H. unfold establish, bind at 1, getc in H.
  assert (X : forall (k : M Z), grows k -> bind initializeSession (fun a => if negb (a =? 0) then ret a else k) s = (Done r, s') ->
    exists r1 s1, initializeSession s = (Done r1, s1) /\ ext s1 s' /\ (r1 <> 0 -> r = r1 /\ s' = s1)).
  { intros k G Hk. apply bind_done in Hk as (r1 & s1 & H1 & Hk). exists r1, s1. split; [exact H1|].
    destruct (Z.eqb_spec r1 0) as [->|N]; cbn [negb] in Hk.
    - specialize (G s1). rewrite Hk in G. split; [exact G|congruence].
    - apply ret_done in Hk as [-> ->]. split; [apply ext_refl|auto]. }
  destruct (c_kind (s_c s)); unfold establishPlain, establishOpp, establishForced in H; (eapply X; [|exact H]).
  all: gs; first [apply grows_initialize|apply grows_greetings|apply grows_greetings_tls|apply grows_upgrade|apply grows_starttls
            |apply grows_identify|apply grows_identify_tls|apply grows_auth].
Qed.
Lemma sendMail_establish : forall m s r s', sendMail m s = (Done r, s') -> c_conn (s_c s) = false ->
  exists r1 s1, establish s = (Done r1, s1) /\ ext s1 s' /\ (r1 <> 0 -> r = r1 /\ s' = s1).
Proof.
  intros m s r s' H C. unfold sendMail, bind at 1, getc in H. rewrite C in H. apply bind_done in H as (r1 & s1 & H1 & H).
  exists r1, s1. split; [exact H1|]. destruct (Z.eqb_spec r1 0) as [->|N]; cbn [negb] in H.
  - split; [|congruence]. assert (G : grows (updc (set_conn true);; mail_transaction m)).
    { unfold mail_transaction. gs. } specialize (G s1). rewrite H in G. exact G.
  - apply ret_done in H as [-> ->]. split; [apply ext_refl|auto].
Qed.
Lemma send_session : forall m s r s', sendMail m s = (Done r, s') -> c_conn (s_c s) = false ->
  exists r1 s1, initializeSession s = (Done r1, s1) /\ ext s1 s' /\ (r1 <> 0 -> r = r1 /\ s' = s1).
Proof.
  intros m s r s' H C. apply sendMail_establish in H as (r2 & s2 & H & E2 & F2); [|exact C].
  apply establish_session in H as (r1 & s1 & H & E1 & F1). exists r1, s1. split; [exact H|]. split; [exact (ext_trans _ _ _ E1 E2)|].
  intros N. destruct (F1 N) as [-> ->]. auto.
Qed.
Lemma world_connects : forall i c m w w' t, get_client w i = Some c -> c_conn c = false ->
  step (OSend i m) w = (Done 0, w') -> w_trace w' = w_trace w ++ t ->
  exists fd ok, In (EvConnect fd (c_port c mod 65536)%N ok) t.
Proof.
  intros i c m w w' t G C S T. assert (Tg := world_target _ _ _ _ _ _ _ G S T).
  destruct (step_send _ _ _ _ _ _ G S) as (X & _ & T' & _). destruct (sendMail m _) as [o s'] eqn:H. cbn [fst snd] in *. subst o.
  apply send_session in H as (r1 & s1 & H & E & F); [|exact C].
  destruct (Z.eq_dec r1 0) as [->|N]; [|destruct (F N) as [N0 _]; congruence].
  apply session_connects in H as (fd & p & ok & t1 & T1 & I1). destruct E as [t2 T2]. cbn [s_t] in T1.
  rewrite T', T2, T1, <- app_assoc in T. apply app_inv_head in T. subst t.
  exists fd, ok. assert (I2 : In (EvConnect fd p ok) (t1 ++ t2)) by (apply in_or_app; left; exact I1).
  assert (E := Tg _ I2). cbn in E. rewrite <- E. exact I2.
Qed.

(** ** C53 *)
Definition net_only (l : label) : Prop := match l with LSend _ | LPuts _ | LUpgrade | LRead | LConn => False | _ => True end.
Lemma session_writes_nothing : forall s, exists t, s_t (snd (initializeSession s)) = s_t s ++ t /\ written t = [] .
Proof.
  intros s. assert (W : walk net_only initializeSession s).
  { apply walk_initialize; exact I. }
  destruct W as [W _]. destruct (steps_written _ _ _ W) as (t & T & Q). exists t. split; [exact T|].
  destruct (written t) as [|d l]; [reflexivity|]. destruct (Q d (or_introl eq_refl)) as [X|[X|[_ X]]]; destruct X.
Qed.
Lemma world_session_code : forall i c m w r w' t, get_client w i = Some c -> c_conn c = false ->
  step (OSend i m) w = (Done r, w') -> w_trace w' = w_trace w ++ t -> usual_calls (w_env w) ->
  first_failure (session_calls (w_env w)) <> 0 ->
  r = first_failure (session_calls (w_env w)) /\ written t = [].
Proof.
  intros i c m w r w' t G C S T U F. destruct (step_send _ _ _ _ _ _ G S) as (X & _ & T' & _).
  destruct (sendMail m _) as [o s'] eqn:H. cbn [fst snd] in *. subst o.
  apply send_session in H as (r1 & s1 & H & E & F1); [|exact C]. assert (H' := H). apply session_code in H; [|exact U]. cbn [s_e] in H.
  rewrite <- H in *. destruct (F1 F) as [-> ->]. split; [reflexivity|].
  destruct (session_writes_nothing (mkSt c (w_env w) (w_trace w))) as (t1 & T1 & W1). rewrite H' in T1. cbn [snd s_t] in T1.
  rewrite T', T1 in T. apply app_inv_head in T. congruence.
Qed.

(** ** C36 *)
Lemma world_code : forall i c m w r w' t, get_client w i = Some c ->
  step (OSend i m) w = (Done r, w') -> w_trace w' = w_trace w ++ t -> r <> 0 -> r <> 1 ->
  (In r defined_codes /\ getErrorMessage r <> generic_text) \/ refusal r t.
Proof.
  intros i c m w r w' t G S T N0 N1. destruct (step_send _ _ _ _ _ _ G S) as (X & _ & T' & _).
  destruct (sendMail m _) as [o s'] eqn:H. cbn [fst snd] in *. subst o.
  apply codes_sendMail in H as [H|[H|[H|(t1 & T1 & R)]]]; try congruence.
  - left. split; [exact H|apply error_message_specific, H].
  - right. cbn [s_t] in T1. rewrite T', T1 in T. apply app_inv_head in T. congruence.
Qed.

(** ** C39 *)
Lemma world_time : forall i c m w x w' t, get_client w i = Some c ->
  step (OSend i m) w = (x, w') -> w_trace w' = w_trace w ++ t ->
  (slept t <= N.max 1 (c_timeout c) * (activity t + 1))%N.
Proof.
  intros i c m w x w' t G S T. destruct (step_send _ _ _ _ _ _ G S) as (_ & _ & T' & _).
  destruct (timed_sendMail (c_timeout c) m (mkSt c (w_env w) (w_trace w)) eq_refl) as (_ & t1 & T1 & L). cbn [s_t] in T1.
  rewrite T', T1 in T. apply app_inv_head in T. congruence.
Qed.
Lemma world_target' : forall i c m w x w' t, get_client w i = Some c -> step (OSend i m) w = (x, w') -> w_trace w' = w_trace w ++ t ->
  forall ev, In ev t ->
  match ev with
  | EvConnect _ p _ => p = (c_port c mod 65536)%N /\ ((c_port c < 65536)%N -> p = c_port c)
  | EvResolve h _ => c_server c = Some h
  | _ => True
  end.
Proof.
  intros i c m w x w' t G S T ev I. assert (E := world_target _ _ _ _ _ _ _ G S T ev I). destruct ev; try exact I; try exact E.
  cbn in E. split; [exact E|]. intros L. rewrite E. apply N.mod_small, L.
Qed.
