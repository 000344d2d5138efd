(** What happens when the connection is lost (C43) and when it is closed (C44). *)

From Coq Require Import Ascii String List NArith ZArith Bool.
From Verif Require Import Base ModelUtil ModelAddress ModelAttachment ModelMessage ModelReply ModelState ModelClient ModelWorld
  SpecDialogue SpecLife SpecDead Samples ProofDead ProofDiverge ProofDiverge2 ProofDiverge3.
Import ListNotations.
Open Scope Z_scope.

(** ** C43 *)

(** C43, the part that always holds: what is written after the socket was
    closed goes to descriptor 0, never to the closed socket, to another client's
    socket or through TLS. *)
Theorem C43_only_descriptor_0_partial : forall i m w x w' t,
  step (OSend i m) w = (x, w') -> w_trace w' = w_trace w ++ t -> only_zero_after_close t.
Proof. exact world_send_zero. Qed.
Print Assumptions C43_only_descriptor_0_partial.

(** C43 in full for a mail to at most one recipient whose To and Cc header lines
    were not the write that failed. *)
Theorem C43_silent_partial : forall i m w x w' t,
  step (OSend i m) w = (x, w') -> w_trace w' = w_trace w ++ t ->
  (length (all_recipients m) <= 1)%nat ->
  (forall field a, In (field, a) [(B "To", m_to m); (B "Cc", m_cc m)] ->
     ~ write_failed (cstr (header_line field (generateHeaderAddressValues (arr_elements a)))) t) ->
  silent_after_close t.
Proof. exact world_send_silent. Qed.
Print Assumptions C43_silent_partial.

(** C43 in full for the destruction of a client. *)
Theorem C43_destroy : forall i w x w' t,
  step (ODestroy i) w = (x, w') -> w_trace w' = w_trace w ++ t -> silent_after_close t.
Proof. exact world_destroy_silent. Qed.
Print Assumptions C43_destroy.

(** The write of DATA fails: the socket is closed and nothing follows. *)
Definition broken_data : env :=
  network [SkFd 3] (hello ++ said "250 ok" ++ said "250 ok") [] [WFull; WFull; WFull; WErr 32] [] [].
Example C43_example :
  result [ONew KPlain server 25; OSend 0 hi] broken_data = [Done 0; Done (-89)] /\
  exists t, events [ONew KPlain server 25; OSend 0 hi] broken_data =
    t ++ [EvSend 3 (B "DATA" ++ CRLF) (WErr 32); EvClose 3].
Proof.
  split; [vm_compute; reflexivity|].
  exists (removelast (removelast (events [ONew KPlain server 25; OSend 0 hi] broken_data))). vm_compute. reflexivity.
Qed.
(** The connection is in batch mode and QUIT fails twice. *)
Definition batch_then_destroy : list op := [ONew KPlain server 25; OSetBatch 0 true; OSend 0 hi; ODestroy 0].
Definition broken_quit : env :=
  network [SkFd 3] (hello ++ mail_replies) [] (repeat WFull 10 ++ [WErr 32; WErr 32]) [] [].
Example C43_example_destroy :
  exists t, events batch_then_destroy broken_quit =
    t ++ [EvSend 3 (B "QUIT" ++ CRLF) (WErr 32); EvSend 3 (B "QUIT" ++ CRLF) (WErr 32);
           EvSend 3 (B "QUIT" ++ CRLF) WFull; EvClose 3].
Proof.
  exists (removelast (removelast (removelast (removelast (events batch_then_destroy broken_quit))))). vm_compute. reflexivity.
Qed.

(** C43 fails for the other mails: with several recipients the client goes on to
    the next one after a failed write ... *)
Theorem C43_next_recipient_refuted : exists ops e t1 t2,
  events ops e = t1 ++ EvClose 3 :: t2 /\ In (EvSend 0 (B "RCPT TO: <joe@example.com>" ++ CRLF) WFull) t2.
Proof.
  pose (ops := [ONew KPlain server 25; OSend 0 two_recipients]).
  pose (e := network [SkFd 3] (hello ++ said "250 ok" ++ said "250 ok") [] [WFull; WFull; WErr 32] [] []).
  exists ops, e, (firstn 23 (events ops e)), (skipn 24 (events ops e)). vm_compute. split; [reflexivity|].
  repeat (try (left; reflexivity); right).
Qed.
Print Assumptions C43_next_recipient_refuted.
(** ... and a failed write of the To header is ignored: the rest of the mail, with
    its text, goes to descriptor 0. *)
Theorem C43_ignored_header_refuted : exists ops e t1 t2,
  events ops e = t1 ++ EvClose 3 :: t2 /\ In (EvSend 0 (B "Subject: Hi" ++ CRLF) WFull) t2 /\
  ops = [ONew KPlain server 25; OSend 0 hi].
Proof.
  pose (ops := [ONew KPlain server 25; OSend 0 hi]).
  pose (e := network [SkFd 3] (hello ++ mail_replies) [] (repeat WFull 5 ++ [WErr 32]) [] []).
  exists ops, e, (firstn 38 (events ops e)), (skipn 39 (events ops e)). vm_compute. split; [reflexivity|].
  split; [|reflexivity]. repeat (try (left; reflexivity); right).
Qed.
Print Assumptions C43_ignored_header_refuted.

(** ** C44 *)

(** C44 in full for programs without opportunistic clients: no operation runs for
    ever, whatever fails. *)
Theorem C44_no_opportunistic_partial : forall ops e, no_opportunistic ops -> ~ In Diverge (result ops e).
Proof. exact ends_no_opportunistic. Qed.
Print Assumptions C44_no_opportunistic_partial.
(** C44 for all programs that do not call setKeepUsingBaseSendCommands(false), as
    long as the servers send SMTP replies. *)
Theorem C44_standard_partial : forall ops e, never_releases_plain ops -> reads_standard (events ops e) ->
  ~ In Diverge (result ops e).
Proof. exact ends_standard. Qed.
Print Assumptions C44_standard_partial.
(** C44: closing writes nothing but QUIT, and one more QUIT only after a QUIT
    that failed. *)
Theorem C44_retries : forall i w x w' t,
  step (ODestroy i) w = (x, w') -> w_trace w' = w_trace w ++ t -> only_retries t.
Proof. exact world_destroy_retries. Qed.
Print Assumptions C44_retries.
(** C44: the only client whose destruction does not end is a connected batch
    client which is not plain, is not set to write in clear and has no TLS
    session. *)
Theorem C44_cause : forall i w x w', step (ODestroy i) w = (x, w') -> x = Diverge ->
  exists c, get_client w i = Some c /\ c_kind c <> KPlain /\ c_batch c = true /\ c_conn c = true /\
    c_rawptr c = false /\ c_bio c = None.
Proof. exact destroy_stuck. Qed.
Print Assumptions C44_cause.

(** Closing twice over failing writes ends. *)
Example C44_example : no_opportunistic batch_then_destroy /\ result batch_then_destroy broken_quit = [Done 0; Done 0; Done 0; Done 0].
Proof.
  split; [|vm_compute; reflexivity]. intros k p n H.
  destruct H as [H|[H|[H|[H|[]]]]]; inversion H. discriminate.
Qed.
(** An opportunistic client that falls back to clear text. *)
Example C44_example_fallback :
  let ops := [ONew KOpp server 25; OSetBatch 0 true; OSend 0 hi; ODestroy 0] in
  never_releases_plain ops /\ reads_standard (events ops broken_quit) /\ result ops broken_quit = [Done 0; Done 0; Done 0; Done 0].
Proof.
  cbv zeta. split; [|split; [|vm_compute; reflexivity]].
  - intros i [H|[H|[H|[H|[]]]]]; inversion H.
  - intros ev d I C.
    assert (X : forallb (fun ev => match ev with
        | EvRecv _ (RData (c :: _)) | EvRead _ (RData (c :: _)) => existsb (Ascii.eqb c) ["2"; "3"; "4"; "5"]%char
        | _ => true end) (events [ONew KOpp server 25; OSetBatch 0 true; OSend 0 hi; ODestroy 0] broken_quit) = true)
      by (vm_compute; reflexivity).
    rewrite forallb_forall in X. specialize (X ev I). destruct d as [|c r]; [left; reflexivity|]. right. exists c, r. split; [reflexivity|].
    assert (Y : existsb (Ascii.eqb c) ["2"; "3"; "4"; "5"]%char = true) by (destruct C as [[? ->]|[? ->]]; exact X).
    apply existsb_exists in Y as (y & Iy & Ey). apply Ascii.eqb_eq in Ey. subst y. exact Iy.
Qed.

(** C44 fails: an opportunistic client that fell back to clear text and is then
    told not to use the plain functions any more never finishes closing ... *)
Theorem C44_released_refuted : exists ops e,
  result ops e = [Done 0; Done 0; Done 0; Done 0; Diverge] /\
  ops = [ONew KOpp server 25; OSetBatch 0 true; OSend 0 hi; OSetKeep 0 false; ODestroy 0].
Proof.
  exists [ONew KOpp server 25; OSetBatch 0 true; OSend 0 hi; OSetKeep 0 false; ODestroy 0], (wire (hello ++ mail_replies)).
  vm_compute. split; reflexivity.
Qed.
Print Assumptions C44_released_refuted.
(** ... and a server whose greeting is 000 makes the first mail run for ever. *)
Theorem C44_greeting_000_refuted : exists ops e, result ops e = [Done 0; Done 0; Diverge] /\
  ops = [ONew KOpp server 25; OSetBatch 0 true; OSend 0 hi].
Proof.
  exists [ONew KOpp server 25; OSetBatch 0 true; OSend 0 hi],
    (network [SkFd 3] (told "000 hello" ++ said "250 ok" ++ said "250 ok" ++ said "354 go") [] [] [] []).
  vm_compute. split; reflexivity.
Qed.
Print Assumptions C44_greeting_000_refuted.
(** [Diverge] is no artefact of a bound: in that state no number of nested calls
    is enough. *)
Theorem C44_no_depth_suffices : forall n s u s', c_batch (s_c s) = true -> c_conn (s_c s) = true ->
  c_kind (s_c s) <> KPlain -> c_rawptr (s_c s) = false -> c_bio (s_c s) = None -> cleanup_f n s <> (Done u, s').
Proof. exact (fun n s u s' Hb Hc Hk Hr Hi => stuck_never n s u s' (conj Hb (conj Hc (conj Hk (conj Hr Hi))))). Qed.
Print Assumptions C44_no_depth_suffices.
