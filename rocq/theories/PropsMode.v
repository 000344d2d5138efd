(** C80: in which mode the library uses its sockets. *)

From Coq Require Import Ascii String List NArith ZArith Bool.
From Verif Require Import Base ModelAddress ModelAttachment ModelMessage ModelReply ModelErrors ModelState ModelClient
  ModelWorld SpecOwn SpecMode ProofMode2 PropsOwn Samples.
Import ListNotations.
Open Scope Z_scope.

(** C80: in every program, if no attempt to change a mode fails and the system
    hands out no descriptor that is open (nor descriptor 0), everything sent in
    clear is sent on a socket in blocking mode, so that no command is cut short
    by a full send buffer. *)
Theorem C80_sends_block_partial : forall e ops p fd d r q, let t := w_trace (snd (run ops (initial_world e))) in
  Forall switched t -> Forall not_zero t -> fresh sockets t ->
  t = p ++ EvSend fd d r :: q -> polling fd p = false.
Proof. exact program_writes. Qed.
Print Assumptions C80_sends_block_partial.

(** C80: within one operation, whatever is written or read over TLS, and every
    handshake, happens when the operation has left no socket in non-blocking
    mode. *)
Theorem C80_tls_blocks_partial : forall o w x w' t p ev q, step o w = (x, w') -> w_trace w' = w_trace w ++ t -> Forall switched t ->
  t = p ++ ev :: q -> writes ev = true \/ uses_tls ev = true -> forall fd, polling fd p = false.
Proof. exact op_writes. Qed.
Print Assumptions C80_tls_blocks_partial.

(** C80: a reply in clear is awaited in non-blocking mode exactly when the
    operation has written something before. *)
Theorem C80_replies_poll_partial : forall o w x w' t p fd r q, step o w = (x, w') -> w_trace w' = w_trace w ++ t -> Forall switched t ->
  t = p ++ EvRecv fd r :: q -> polling fd p = existsb writes p.
Proof. exact op_recv. Qed.
Print Assumptions C80_replies_poll_partial.

(** C80: an operation that wrote something and came to its end leaves no socket
    in non-blocking mode, whatever it reports. *)
Theorem C80_left_blocking_partial : forall o w x w' t, step o w = (x, w') -> w_trace w' = w_trace w ++ t -> Forall switched t ->
  continues x = true -> existsb writes t = true -> forall fd, polling fd t = false.
Proof. exact op_left. Qed.
Print Assumptions C80_left_blocking_partial.

(** The hypotheses are met: a batch of two messages, another client in between,
    and a server that is late. *)
Definition mixed : list op := [ONew KPlain server 25; OSetBatch 0 true; OSend 0 hi; ONew KPlain server 25; OSend 1 hi; OSend 0 hi; ODestroy 0; ODestroy 1].
Definition late : env := wire (hello ++ [RErr 11; RErr 11] ++ mail_replies ++ hello ++ mail_replies ++ [RErr 11] ++ mail_replies).
Example C80_program_example : let t := events mixed late in
  result mixed late = repeat (Done 0) 8 /\ Forall switched t /\ Forall not_zero t /\ fresh sockets t /\
  length (filter writes t) = 31%nat /\ length (filter (fun ev => match ev with EvFcntl _ (Some true) true => true | _ => false end) t) = 16%nat.
Proof.
  cbv zeta. split; [vm_compute; reflexivity|]. split; [vm_compute; repeat constructor|]. split; [vm_compute; repeat constructor; discriminate|].
  split; [apply fresh_checked; vm_compute; reflexivity|]. split; vm_compute; reflexivity.
Qed.
(** One operation, of an encrypted client: something is written in clear, then
    over TLS, and replies come both ways. *)
Definition safe_env : env := tls_wire tls_hello (tls_ident ++ mail_replies) [good_tls].
Definition safe_world : world := snd (run [ONew KOpp server 587] (initial_world safe_env)).
Example C80_operation_example : let t := w_trace (snd (step (OSend 0 hi) safe_world)) in
  fst (step (OSend 0 hi) safe_world) = Done 0 /\ w_trace (snd (step (OSend 0 hi) safe_world)) = w_trace safe_world ++ t /\ Forall switched t /\
  existsb writes t = true /\ existsb uses_tls t = true /\
  exists p fd r q, t = p ++ EvRecv fd r :: q /\ polling fd p = true.
Proof.
  cbv zeta. split; [vm_compute; reflexivity|]. split; [vm_compute; reflexivity|]. split; [vm_compute; repeat constructor|]. split; [vm_compute; reflexivity|]. split; [vm_compute; reflexivity|].
  set (t := w_trace _). exists (firstn 11 t). eexists _, _, (skipn 12 t). vm_compute. split; reflexivity.
Qed.

(** C80 fails for the greeting: it is awaited in blocking mode, so the
    configured number of seconds does not limit the wait. *)
Theorem C80_greeting_refuted : exists e t p fd r q, fst (run [ONew KPlain server 25; OSend 0 hi] (initial_world e)) = [Done 0; Done 0] /\
  t = w_trace (snd (run [ONew KPlain server 25; OSend 0 hi] (initial_world e))) /\ Forall switched t /\
  t = p ++ EvRecv fd r :: q /\ polling fd p = false.
Proof.
  exists (wire (hello ++ mail_replies)). set (e := wire _). eexists. exists (firstn 7 (events [ONew KPlain server 25; OSend 0 hi] e)), 3, (RData (B "220 ready" ++ CRLF)), (skipn 8 (events [ONew KPlain server 25; OSend 0 hi] e)).
  split; [vm_compute; reflexivity|]. split; [reflexivity|]. split; [vm_compute; repeat constructor|]. split; vm_compute; reflexivity.
Qed.
Print Assumptions C80_greeting_refuted.
(** C80 fails for replies over TLS in the same way. *)
Theorem C80_tls_reply_refuted : exists p b fd r q, w_trace (snd (step (OSend 0 hi) safe_world)) = p ++ EvRead b r :: q /\
  Forall switched p /\ In (EvBioNew b fd) p /\ polling fd p = false.
Proof.
  set (t := w_trace _). exists (firstn 28 t), 1%nat, 3. eexists _, (skipn 29 t). split; [vm_compute; reflexivity|]. split; [vm_compute; repeat constructor|]. split; [|vm_compute; reflexivity].
  vm_compute. repeat (try (left; reflexivity); right).
Qed.
Print Assumptions C80_tls_reply_refuted.
(** C80 fails when a mode cannot be changed back: the failure is recorded in the
    log only, the message is sent in non-blocking mode and reported as sent. *)
Theorem C80_failed_switch_refuted : exists e p fd d r q, let ops := [ONew KPlain server 25; OSend 0 hi] in
  fst (run ops (initial_world e)) = [Done 0; Done 0] /\ Forall not_zero (events ops e) /\ fresh sockets (events ops e) /\
  events ops e = p ++ EvSend fd d r :: q /\ polling fd p = true.
Proof.
  exists (set_fcntl [None; None; None; None; None; None; None; Some 9] (wire (hello ++ mail_replies))). set (e := set_fcntl _ _).
  set (t := events [ONew KPlain server 25; OSend 0 hi] e). exists (firstn 15 t), 3. eexists _, _, (skipn 16 t). cbv zeta. fold t.
  split; [vm_compute; reflexivity|]. split; [vm_compute; repeat constructor; discriminate|]. split; [apply fresh_checked; vm_compute; reflexivity|]. split; vm_compute; reflexivity.
Qed.
Print Assumptions C80_failed_switch_refuted.
