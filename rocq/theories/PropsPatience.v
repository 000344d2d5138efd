(** C73: when a sending operation reports a timeout, did the server have the
    configured time?  [EvSleep n] records n seconds of waiting. *)

From Coq Require Import Ascii String List NArith ZArith Bool.
From Verif Require Import Base ModelAddress ModelAttachment ModelMessage ModelReply ModelErrors ModelState ModelClient
  ModelWorld SpecReply SpecErrors SpecDialogue SpecConn SpecPatience ProofPatience2 Samples.
Import ListNotations.
Open Scope Z_scope.

(** C73: if everything received begins with a reply code and no signal
    interrupts the connection attempt, a timeout code means that the configured
    number of seconds passed without a byte received or written, or that
    connecting took longer than that. *)
Theorem C73_timeout_means_silence_partial : forall i c m w r w' t, get_client w i = Some c ->
  step (OSend i m) w = (Done r, w') -> w_trace w' = w_trace w ++ t -> In r timeout_codes ->
  coded_reads t -> nth_answer 0 (e_select (w_env w)) SelReady <> SelErr 4 ->
  silence (c_timeout c) t \/ connection_expired (c_timeout c) (w_env w) t.
Proof. exact world_patience. Qed.
Print Assumptions C73_timeout_means_silence_partial.

(** A new client that sends. *)
Definition first_send (e : env) : outcome Z * world := step (OSend 0 hi) (snd (run [ONew KPlain server 25] (initial_world e))).

(** The hypotheses are met: a greeting after two seconds, a reply to EHLO after
    one, and none to MAIL. *)
Definition sluggish : env := wire ([RErr 11; RErr 11] ++ told "220 ready" ++ [RErr 11] ++ said "250 ok" ++ repeat (RErr 11) 20).
Example C73_example : let w := snd (run [ONew KPlain server 25] (initial_world sluggish)) in exists c t,
  get_client w 0 = Some c /\ c_timeout c = 5%N /\ fst (step (OSend 0 hi) w) = Done (-86) /\ In (-86) timeout_codes /\
  w_trace (snd (step (OSend 0 hi) w)) = w_trace w ++ t /\ coded_reads t /\
  nth_answer 0 (e_select (w_env w)) SelReady <> SelErr 4.
Proof.
  cbv zeta. eexists. match goal with |- exists _, _ /\ _ /\ _ /\ _ /\ ?l = _ /\ _ => exists (skipn 0 l) end.
  split; [vm_compute; reflexivity|]. split; [vm_compute; reflexivity|]. split; [vm_compute; reflexivity|].
  split; [cbn; tauto|]. split; [vm_compute; reflexivity|]. split; [|vm_compute; discriminate].
  set (t := skipn _ _). vm_compute in t. subst t. intros ev ch d I. vm_compute in I.
  assert (X : begins_with_code (B "220 ready" ++ CRLF)).
  { exists "2"%char, "2"%char, "0"%char, " "%char, 2, 2, 0. eexists. split; [reflexivity|]. repeat split; vm_compute; congruence. }
  assert (Y : begins_with_code (B "250 ok" ++ CRLF)).
  { exists "2"%char, "5"%char, "0"%char, " "%char, 2, 5, 0. eexists. split; [reflexivity|]. repeat split; vm_compute; congruence. }
  repeat destruct I as [<-|I]; try (intros [(fd & E)|(b & E)]; first [discriminate E|injection E as <- <- <-; first [exact X|exact Y]]). destruct I.
Qed.
(** A connection attempt that takes longer. *)
Example C73_connect_example : let e := mkEnv [] [] [] [] [SkFd 3] [] [] [Some 115] [SelTimeout] [] [] files (fun _ => B "error") (fun _ => []) 0 in
  fst (first_send e) = Done (-3) /\ In (EvSelect 3 5) (w_trace (snd (first_send e))).
Proof. vm_compute. split; [reflexivity|]. repeat (try (left; reflexivity); right). Qed.

(** C73 fails for replies that begin with no code: a server that answers MAIL
    with "ok" at once is reported as silent, and no time passed at all. *)
Theorem C73_answer_is_timeout_refuted : exists e,
  fst (first_send e) = Done CLIENT_SENDMAIL_MAILFROM_TIMEOUT /\
  In (EvRecv 3 (RData (B "ok"))) (w_trace (snd (first_send e))) /\
  slept (w_trace (snd (first_send e))) = 0%N.
Proof.
  exists (wire (hello ++ [RData (B "ok"); RErr 11] ++ repeat (RErr 11) 20)). vm_compute.
  split; [reflexivity|]. split; [|reflexivity]. repeat (try (left; reflexivity); right).
Qed.
Print Assumptions C73_answer_is_timeout_refuted.

(** C73 fails when a signal interrupts the connection attempt: it is reported as
    a timeout, whatever time has passed. *)
Theorem C73_signal_is_timeout_refuted : exists e,
  nth_answer 0 (e_select e) SelReady = SelErr 4 /\ fst (first_send e) = Done SOCKET_INIT_SESSION_CONNECT_TIMEOUT /\
  slept (w_trace (snd (first_send e))) = 0%N.
Proof.
  exists (mkEnv [] [] [] [] [SkFd 3] [] [] [Some 115] [SelErr 4] [] [] files (fun _ => B "error") (fun _ => []) 0).
  vm_compute. auto.
Qed.
Print Assumptions C73_signal_is_timeout_refuted.

(** With a timeout of 0 no greeting is ever in time: one that is there at once
    is read and thrown away. *)
Theorem C73_zero_timeout_refuted : exists e,
  fst (run [ONew KPlain server 25; OSetTimeout 0 0; OSend 0 hi] (initial_world e)) = [Done 0; Done 0; Done SOCKET_INIT_SESSION_CONNECT_TIMEOUT] /\
  In (EvRecv 3 (RData (B "220 ready" ++ CRLF))) (w_trace (snd (run [ONew KPlain server 25; OSetTimeout 0 0; OSend 0 hi] (initial_world e)))).
Proof.
  exists (wire (hello ++ mail_replies)). vm_compute. split; [reflexivity|]. repeat (try (left; reflexivity); right).
Qed.
Print Assumptions C73_zero_timeout_refuted.
