(** C74 for single operations, and C80 on Windows. *)

From Coq Require Import Ascii String List NArith ZArith Bool.
From Verif Require Import Base ModelAddress ModelAttachment ModelMessage ModelReply ModelErrors ModelState ModelClient
  ModelWorld ModelWin SpecWin SpecMode ProofWin3 ProofWinMode PropsWin Samples.
Import ListNotations.
Open Scope Z_scope.

(** C74, one operation at a time: after any program, also one whose operations
    failed, an operation without a failure of its own does on Windows what it does
    on POSIX with clients in the same state and the same rest of the network. *)
Theorem C74_each_operation : forall ops e x o z w' t, let w := snd (wrun ops (initial_wworld e x)) in
  wstep o w = (z, w') -> ww_trace w' = ww_trace w ++ t -> Forall smooth t ->
  exists f w'', step o (mkWorld (w_clients (ww w)) (posix_env f (w_env (ww w))) []) = (z, w'') /\
  w_clients w'' = w_clients (ww w') /\ talk (w_trace w'') = wtalk t.
Proof. exact each_operation. Qed.
Print Assumptions C74_each_operation.

(** The hypotheses are met: the name is not found for the first message; the
    second one is sent. *)
Definition first_fails : list op := [ONew KPlain server 25; OSend 0 hi].
Definition no_name : wenv := mkWenv [] [11001] [] [] [] (fun _ => Some (B "No such host is known.")).
Example C74_each_example : let w := snd (wrun first_fails (initial_wworld (wire (hello ++ mail_replies)) no_name)) in
  wresults first_fails (wire (hello ++ mail_replies)) no_name = [Done 0; Done (-5)] /\
  exists w' t, wstep (OSend 0 hi) w = (Done 0, w') /\ ww_trace w' = ww_trace w ++ t /\ Forall smooth t /\ (20 <? length t)%nat = true.
Proof.
  cbv zeta. split; [vm_compute; reflexivity|]. destruct (wstep _ _) as [z w'] eqn:E. vm_compute in E. injection E as <- <-.
  eexists. exists (skipn 3 (ww_trace (snd (wstep (OSend 0 hi) (snd (wrun first_fails (initial_wworld (wire (hello ++ mail_replies)) no_name))))))).
  split; [reflexivity|]. split; [vm_compute; reflexivity|]. split; [apply smoothb_ok; vm_compute; reflexivity|vm_compute; reflexivity].
Qed.

(** C80 on Windows: in every program, whatever connects, writes, or makes a
    handshake or reads over TLS, happens when no socket at all is in non-blocking
    mode, unless ioctlsocket failed before. *)
Theorem C80_windows_blocks_partial : forall ops e x p ev q, let t := ww_trace (snd (wrun ops (initial_wworld e x))) in
  t = p ++ WSock ev :: q -> Forall wswitched p -> writes ev = true \/ uses_tls ev = true \/ connects ev = true ->
  forall fd, wpolling fd p = false.
Proof. exact wprogram_modes. Qed.
Print Assumptions C80_windows_blocks_partial.

(** C80 on Windows: a reply in clear is awaited in non-blocking mode exactly when
    the operation has written something before. *)
Theorem C80_windows_replies_poll_partial : forall o w p fd r q t x w',
  wstep o w = (x, w') -> ww_trace w' = ww_trace w ++ t -> Forall wswitched p ->
  t = p ++ WSock (EvRecv fd r) :: q -> wpolling fd p = existsb wwrites p.
Proof. exact wop_recv. Qed.
Print Assumptions C80_windows_replies_poll_partial.

(** C80 on Windows: a program that comes to its end leaves no socket in
    non-blocking mode, whatever its operations report. *)
Theorem C80_windows_left_blocking_partial : forall ops e x, let t := ww_trace (snd (wrun ops (initial_wworld e x))) in
  Forall wswitched t -> forallb continues (fst (wrun ops (initial_wworld e x))) = true -> forall fd, wpolling fd t = false.
Proof. exact wprogram_left. Qed.
Print Assumptions C80_windows_left_blocking_partial.

(** The hypotheses are met: the program of C74, in which 12 replies are awaited
    over TLS and some in clear, and one in which the server is late. *)
Definition slow : env := wire (hello ++ [RErr 11; RErr 11] ++ mail_replies ++ [RErr 11]).
Definition slow_program : list op := [ONew KPlain server 25; OSend 0 hi].
Example C80_windows_example : let t := wtrace win_program win_network windows in
  Forall wswitched t /\ forallb continues (wresults win_program win_network windows) = true /\
  (5 <? length (filter (fun ev => match ev with WSock e => uses_tls e | _ => false end) t))%nat = true /\
  exists fd, In (WIoctl fd true None) t.
Proof.
  cbv zeta. split; [vm_compute; repeat constructor|]. split; [vm_compute; reflexivity|]. split; [vm_compute; reflexivity|].
  exists 3. vm_compute. repeat (try (left; reflexivity); right).
Qed.
Example C80_windows_poll_example : let w := snd (wrun [ONew KPlain server 25] (initial_wworld slow windows)) in
  let t := ww_trace (snd (wstep (OSend 0 hi) w)) in ww_trace w = [] /\
  exists p fd r q, t = p ++ WSock (EvRecv fd r) :: q /\ Forall wswitched p /\ wpolling fd p = true.
Proof.
  cbv zeta. split; [vm_compute; reflexivity|].
  set (t := ww_trace _). exists (firstn 8 t), 3. eexists _, (skipn 9 t). split; [vm_compute; reflexivity|]. split; [vm_compute; repeat constructor|vm_compute; reflexivity].
Qed.

(** C80 fails on Windows, too, when a mode cannot be changed back: the message is
    sent in non-blocking mode and reported as sent. *)
Theorem C80_windows_failed_switch_refuted : exists e x p fd d r q, let ops := [ONew KPlain server 25; OSend 0 hi] in
  wresults ops e x = [Done 0; Done 0] /\ wtrace ops e x = p ++ WSock (EvSend fd d r) :: q /\ wpolling fd p = true.
Proof.
  exists (wire (hello ++ mail_replies)), (mkWenv [] [] [] [None; Some 10038] [] (fun _ => None)). set (e := wire _). set (x := mkWenv _ _ _ _ _ _).
  set (t := wtrace [ONew KPlain server 25; OSend 0 hi] e x). exists (firstn 10 t), 3. eexists _, _, (skipn 11 t). cbv zeta. fold t.
  split; [vm_compute; reflexivity|]. split; vm_compute; reflexivity.
Qed.
Print Assumptions C80_windows_failed_switch_refuted.
