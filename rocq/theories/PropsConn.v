(** C36, C39, C52, C53: opening the connection, waiting for replies and the
    result of a sending operation.  [t] is what happened during the step. *)

From Coq Require Import Ascii String List NArith ZArith Bool.
From Verif Require Import Base ModelAddress ModelAttachment ModelMessage ModelErrors ModelReply ModelState ModelClient ModelWorld
  SpecAddress SpecReply SpecErrors SpecDialogue SpecConn Samples ProofConn ProofConn2.
Import ListNotations.
Open Scope Z_scope.

(** A program that creates a client of kind [k] for port [p] and sends. *)
Definition fresh (k : clientkind) (p : N) (e : env) : world := snd (run [ONew k server p] (initial_world e)).
Definition send_with (k : clientkind) (p : N) (e : env) : outcome Z * world := step (OSend 0 hi) (fresh k p e).

(** ** C36 *)

(** C36: a non-zero result is one of the documented codes, which has its own
    error text, or the code of a text received from the server after which only
    RCPT and QUIT lines were written.  Missing: the result 1 (see below), the
    stage that each documented code belongs to. *)
Theorem C36_result_explained_partial : forall i c m w r w' t, get_client w i = Some c ->
  step (OSend i m) w = (Done r, w') -> w_trace w' = w_trace w ++ t -> r <> 0 -> r <> 1 ->
  (In r defined_codes /\ getErrorMessage r <> generic_text) \/ refusal r t.
Proof. exact world_code. Qed.
Print Assumptions C36_result_explained_partial.

Definition refusing : env := wire (hello ++ said "250 ok" ++ said "550 no such user").
Example C36_example : exists c w' t, get_client (fresh KPlain 25 refusing) 0 = Some c /\
  send_with KPlain 25 refusing = (Done 550, w') /\ w_trace w' = w_trace (fresh KPlain 25 refusing) ++ t /\ length t = 29%nat.
Proof.
  eexists _, _, _. split; [vm_compute; reflexivity|]. split; [vm_compute; reflexivity|]. split; [vm_compute; reflexivity|].
  vm_compute. reflexivity.
Qed.

(** C36 fails: when the descriptor cannot be made non-blocking the result is 1,
    which has no documented meaning (and no reply was received). *)
Theorem C36_undocumented_one_refuted : exists e w', fst (send_with KPlain 25 e) = Done 1 /\ snd (send_with KPlain 25 e) = w' /\
  ~ In 1 defined_codes /\ getErrorMessage 1 = generic_text /\ forall fd x, ~ In (EvRecv fd x) (w_trace w').
Proof.
  exists (mkEnv [] [] [] [] [SkFd 3] [] [None; Some 22] [] [] [] [] files (fun _ => B "error") (fun _ => []) 0). eexists.
  split; [vm_compute; reflexivity|]. split; [vm_compute; reflexivity|]. split; [cbv; intuition discriminate|]. split; [vm_compute; reflexivity|].
  intros fd x H. vm_compute in H. repeat (destruct H as [H|H]; [discriminate H|]). destruct H.
Qed.
Print Assumptions C36_undocumented_one_refuted.

(** C36 fails: a greeting without a reply code is reported with the code of a
    failed socket creation although the socket was created and connected. *)
Theorem C36_wrong_stage_refuted : exists e w', send_with KPlain 25 e = (Done SOCKET_INIT_SESSION_CREATION_ERROR, w') /\
  In (EvSocket (SkFd 3)) (w_trace w') /\ In (EvConnect 3 25%N true) (w_trace w').
Proof.
  exists (wire (told "hello there")). eexists. split; [vm_compute; reflexivity|].
  split; vm_compute; repeat (try (left; reflexivity); right).
Qed.
Print Assumptions C36_wrong_stage_refuted.

(** ** C39 *)

(** C39, one reply in clear: at most [timeout] seconds of sleep (1 when it is
    0); silence is reported after exactly that time; anything received is
    returned.  Missing: reads on the blocking socket (see below). *)
Theorem C39_reply_partial : forall s o s', getRawCommandReply s = (o, s') -> exists t, s_t s' = s_t s ++ t /\
  (slept t <= N.max 1 (c_timeout (s_c s)))%N /\
  (forall r, o = Done r -> (forall ev, In ev t -> ~ delivers ev) -> r = -1 /\ slept t = N.max 1 (c_timeout (s_c s))) /\
  (forall r, o = Done r -> (exists ev, In ev t /\ delivers ev) ->
     r = extractReturnCode (Some (heard t)) /\ c_resp (s_c s') = Some (heard t)).
Proof. exact raw_reply_time. Qed.
Print Assumptions C39_reply_partial.

(** C39, one reply over TLS. *)
Theorem C39_reply_tls_partial : forall s o s', wait_bio s = (o, s') -> exists t, s_t s' = s_t s ++ t /\
  (slept t <= c_timeout (s_c s))%N /\ (o = Done None -> slept t = c_timeout (s_c s)) /\
  (forall d, o = Done (Some d) -> (slept t < c_timeout (s_c s))%N /\ exists ev, In ev t /\ delivers ev) /\
  (forall x, o = Done x -> (exists ev, In ev t /\ delivers ev) -> (slept t < c_timeout (s_c s))%N -> x <> None).
Proof. exact wait_bio_time. Qed.
Print Assumptions C39_reply_tls_partial.

(** C39, a whole sending operation, however it ends: at most one timeout per
    write or read that delivered something, and one for the greeting. *)
Theorem C39_send_partial : forall i c m w x w' t, get_client w i = Some c ->
  step (OSend i m) w = (x, w') -> w_trace w' = w_trace w ++ t ->
  (slept t <= N.max 1 (c_timeout c) * (activity t + 1))%N.
Proof. exact world_time. Qed.
Print Assumptions C39_send_partial.

(** A late greeting, a late reply to EHLO, and no reply to MAIL. *)
Definition slow : env := wire ([RErr 11; RErr 11] ++ told "220 ready" ++ [RErr 11] ++ said "250 ok" ++ repeat (RErr 11) 20).
Example C39_example : exists c w' t, get_client (fresh KPlain 25 slow) 0 = Some c /\ c_timeout c = 5%N /\
  send_with KPlain 25 slow = (Done CLIENT_SENDMAIL_MAILFROM_TIMEOUT, w') /\ w_trace w' = w_trace (fresh KPlain 25 slow) ++ t /\
  slept t = 8%N /\ activity t = 4%N.
Proof.
  eexists _, _, _. split; [vm_compute; reflexivity|]. split; [vm_compute; reflexivity|]. split; [vm_compute; reflexivity|].
  split; [vm_compute; reflexivity|]. vm_compute. split; reflexivity.
Qed.

(** C39 fails: the greeting is read on a socket that was made blocking again;
    if the server says nothing the operation never returns. *)
Theorem C39_blocking_greeting_refuted : exists e w' fd t, send_with KPlain 25 e = (Blocked, w') /\
  w_trace w' = t ++ [EvFcntl fd (Some false) true] /\ In (EvConnect fd 25%N true) t /\ slept (w_trace w') = 0%N.
Proof.
  exists (wire []). eexists _, 3.
  match goal with |- exists _, _ = (_, ?w') /\ _ => exists (removelast (w_trace (snd (send_with KPlain 25 (wire []))))) end.
  split; [vm_compute; reflexivity|]. split; [vm_compute; reflexivity|].
  split; vm_compute; repeat (try (left; reflexivity); right). reflexivity.
Qed.
Print Assumptions C39_blocking_greeting_refuted.

(** ** C52 *)

(** C52: every connection attempt goes to the configured host and port. *)
Theorem C52_target : forall i c m w x w' t, get_client w i = Some c ->
  step (OSend i m) w = (x, w') -> w_trace w' = w_trace w ++ t ->
  forall ev, In ev t ->
  match ev with
  | EvConnect _ p _ => p = (c_port c mod 65536)%N /\ ((c_port c < 65536)%N -> p = c_port c)
  | EvResolve h _ => c_server c = Some h
  | _ => True
  end.
Proof. exact world_target'. Qed.
Print Assumptions C52_target.
Theorem C52_connects : forall i c m w w' t, get_client w i = Some c -> c_conn c = false ->
  step (OSend i m) w = (Done 0, w') -> w_trace w' = w_trace w ++ t ->
  exists fd ok, In (EvConnect fd (c_port c mod 65536)%N ok) t.
Proof. exact world_connects. Qed.
Print Assumptions C52_connects.

Definition accepting : env := wire (hello ++ mail_replies).
Example C52_example : exists c w' t, get_client (fresh KPlain 587 accepting) 0 = Some c /\ c_conn c = false /\ c_port c = 587%N /\
  send_with KPlain 587 accepting = (Done 0, w') /\ w_trace w' = w_trace (fresh KPlain 587 accepting) ++ t /\
  In (EvConnect 3 587%N true) t.
Proof.
  eexists _, _, _. split; [vm_compute; reflexivity|]. split; [vm_compute; reflexivity|]. split; [vm_compute; reflexivity|].
  split; [vm_compute; reflexivity|]. split; [vm_compute; reflexivity|]. vm_compute. repeat (try (left; reflexivity); right).
Qed.
(** A port that does not fit in 16 bits is reduced. *)
Example C52_large_port : exists w', send_with KPlain 65561 accepting = (Done 0, w') /\ In (EvConnect 3 25%N true) (w_trace w').
Proof. eexists. split; [vm_compute; reflexivity|]. vm_compute. repeat (try (left; reflexivity); right). Qed.

(** ** C53 *)

(** C53: opening the session returns the documented code of the first failing
    call, 0 if there is none.  Missing: a failure of the first two fcntl calls,
    and an interrupted select. *)
Theorem C53_session_code_partial : forall s r s', initializeSession s = (Done r, s') -> usual_calls (s_e s) ->
  r = first_failure (session_calls (s_e s)).
Proof. exact session_code. Qed.
Print Assumptions C53_session_code_partial.
(** C53, seen from a send: a failing call is reported and nothing is written. *)
Theorem C53_send_code_partial : forall i c m w r w' t, get_client w i = Some c -> c_conn c = false ->
  step (OSend i m) w = (Done r, w') -> w_trace w' = w_trace w ++ t -> usual_calls (w_env w) ->
  first_failure (session_calls (w_env w)) <> 0 ->
  r = first_failure (session_calls (w_env w)) /\ written t = [].
Proof. exact world_session_code. Qed.
Print Assumptions C53_send_code_partial.

Definition opening (fcntl : list (option Z)) (conn : list (option Z)) (sel : list sel_res) (so : list sopt_res) : env :=
  mkEnv [] [] [] [] [SkFd 3] [] fcntl conn sel so [] files (fun _ => B "error") (fun _ => []) 0.
Definition unreachable : env := opening [] [Some 115] [SelReady] [SoVal 111].
Example C53_example : exists c w', get_client (fresh KPlain 25 unreachable) 0 = Some c /\ c_conn c = false /\
  usual_calls (w_env (fresh KPlain 25 unreachable)) /\ first_failure (session_calls (w_env (fresh KPlain 25 unreachable))) = -10 /\
  send_with KPlain 25 unreachable = (Done (-10), w').
Proof.
  eexists _, _. split; [vm_compute; reflexivity|]. split; [reflexivity|]. split; [split; [|split]; vm_compute; try reflexivity; discriminate|].
  split; vm_compute; reflexivity.
Qed.

(** C53 fails: a failing fcntl is reported as 1 or not at all, an interrupted
    select as a timeout. *)
Theorem C53_fcntl_refuted : exists e w', send_with KPlain 25 e = (Done 1, w') /\ first_failure (session_calls e) = -8.
Proof. exists (opening [None; Some 22] [] [] []). eexists. split; vm_compute; reflexivity. Qed.
Print Assumptions C53_fcntl_refuted.
Theorem C53_fcntl_ignored_refuted : exists e w', send_with KPlain 25 e = (Done 0, w') /\ first_failure (session_calls e) = -7.
Proof.
  exists (mkEnv (hello ++ mail_replies) [] [] [] [SkFd 3] [] [Some 22] [] [] [] [] files (fun _ => B "error") (fun _ => []) 0).
  eexists. split; vm_compute; reflexivity.
Qed.
Print Assumptions C53_fcntl_ignored_refuted.
Theorem C53_interrupted_refuted : exists e w', send_with KPlain 25 e = (Done (-3), w') /\ first_failure (session_calls e) = -2.
Proof. exists (opening [] [Some 115] [SelErr 4] []). eexists. split; vm_compute; reflexivity. Qed.
Print Assumptions C53_interrupted_refuted.
