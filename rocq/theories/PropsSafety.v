(** C37, C38, C58, C61: the communication log and undefined behaviour, for
    every program. *)

From Coq Require Import Ascii String List NArith ZArith Bool.
From Verif Require Import Base ModelAddress ModelAttachment ModelMessage ModelReply ModelState ModelClient
  ModelWorld SpecText SpecMime SpecSafety Samples ProofSafety.
Import ListNotations.
Open Scope Z_scope.

(** C61: undefined behaviour has one of the listed causes. *)
Theorem C61_causes_of_undefined_behaviour : forall ops e u,
  In (Undef u) (fst (run ops (initial_world e))) ->
  cause ops (w_trace (snd (run ops (initial_world e)))) u.
Proof. exact run_cause. Qed.
Print Assumptions C61_causes_of_undefined_behaviour.

(** A program with two clients, one of them copied and destroyed. *)
Example C61_safe_example :
  result [ONew KPlain server 25; OSend 0 hi; OCopy 0; OSetBatch 1 true; OSend 1 hi; ODestroy 1; ODestroy 0]
         (wire (hello ++ mail_replies ++ hello ++ mail_replies))
  = [Done 0; Done 0; Done 0; Done 0; Done 0; Done 0; Done 0].
Proof. vm_compute. reflexivity. Qed.
(** The causes are possible: a client used after it was moved from, a long
    reply, a non-ASCII reply, a server without AUTH. *)
Example C61_moved_example :
  result [ONew KPlain server 25; OMove 0; OSend 0 hi] (wire hello) = [Done 0; Done 0; Undef (UB_NullDeref PServer)].
Proof. vm_compute. reflexivity. Qed.
Example C61_isspace_example :
  result [ONew KOpp server 25; OSend 0 hi]
    (wire (told "220 ready" ++ [RData (B "250 ok" ++ [ascii_of_N 200]); RErr 11]))
  = [Done 0; Undef UB_IsspaceNegative].
Proof. vm_compute. reflexivity. Qed.
Example C61_auth_example :
  result [ONew KPlain server 25; OSetCred 0 joe_cred; OSend 0 hi] (wire hello)
  = [Done 0; Done 0; Undef (UB_NullDeref PAuth)].
Proof. vm_compute. reflexivity. Qed.

(** C37: appending to the log never overruns it. *)
Theorem C37_log_never_overrun : forall ops e,
  ~ In (Undef (UB_NullDeref PLog)) (fst (run ops (initial_world e))) /\
  ~ In (Undef (UB_BufferOverflow BufLog)) (fst (run ops (initial_world e))).
Proof. exact no_log_ub. Qed.
Print Assumptions C37_log_never_overrun.

(** C37: one entry is added exactly, whatever its size (the exception is
    std::bad_alloc, when the log would exceed the largest possible object). *)
Theorem C37_entry_is_complete : forall ops e i c item prefix s,
  let w := snd (run ops (initial_world e)) in
  get_client w i = Some c -> c_conn c = true -> s_c s = c ->
  addLog item prefix s = (Throw, s) \/
  exists s', addLog item prefix s = (Done tt, s') /\
    getCommunicationLog (s_c s') = getCommunicationLog c ++
      log_line (prefix, if str_eqb prefix (B "c") then show_crlf (cstr item) else cstr item).
Proof. exact world_append. Qed.
Print Assumptions C37_entry_is_complete.

(** The log of a whole mail, in batch mode. *)
Definition batch_world : world :=
  snd (run [ONew KPlain server 25; OSetBatch 0 true; OSend 0 hi] (initial_world (wire (hello ++ mail_replies)))).
Example C37_example : exists c, get_client batch_world 0 = Some c /\ c_conn c = true /\
  getCommunicationLog c = log_text
    [(B "c", B "Trying to connect to smtp.example.com on port 25"); (B "s", B "220 ready" ++ [CR]);
     (B "c", B "Connected!"); (B "c", B "ehlo localhost\r\n"); (B "s", B "250 ok" ++ CRLF);
     (B "c", B "MAIL FROM: <joe@example.com>\r\n"); (B "s", B "250 ok" ++ CRLF);
     (B "c", B "RCPT TO: <jane@example.com>\r\n"); (B "s", B "250 ok" ++ CRLF);
     (B "c", B "DATA\r\n"); (B "s", B "354 go" ++ CRLF);
     (B "c", B "From: Joe <joe@example.com>\r\n"); (B "c", B "To: jane@example.com\r\n");
     (B "c", B "Subject: Hi\r\n"); (B "c", B "Content-Type: multipart/related; boundary=sep\r\n\r\n");
     (B "c", B "--sep\r\nContent-Type: text/plain; charset=UTF-8\r\n\r\nhello\r\n");
     (B "c", B "\r\n.\r\n"); (B "s", B "250 queued" ++ CRLF)].
Proof. vm_compute. eexists. split; [reflexivity|split; reflexivity]. Qed.

(** C37: whatever the history (new, copied, assigned, moved and used clients),
    the log of a client fits, with its terminating NUL, in the memory allocated
    for it. *)
Theorem C37_log_fits : forall ops e i c,
  get_client (snd (run ops (initial_world e))) i = Some c ->
  forall lg, c_log c = Some lg -> (slen (lg_text lg) + 1 <= lg_cap lg)%N.
Proof. exact run_log_fits. Qed.
Print Assumptions C37_log_fits.
(** The copy of a client whose connection is open: its log takes exactly its
    allocation. *)
Example C37_fits_example : exists c lg,
  get_client (snd (run [ONew KPlain server 25; OSetBatch 0 true; OSend 0 hi; OCopy 0]
    (initial_world (wire (hello ++ mail_replies))))) 1 = Some c /\ c_log c = Some lg /\
  (200 < slen (lg_text lg))%N /\ lg_cap lg = (slen (lg_text lg) + 1)%N.
Proof. vm_compute. eexists. eexists. split; [reflexivity|]. split; [reflexivity|]. split; reflexivity. Qed.

(** C38: false for a block that fills the buffer. *)
Theorem C38_receive_buffer_refuted : exists ops e,
  In (Undef (UB_BufferOverflow BufRecv)) (fst (run ops (initial_world e))).
Proof. exact recv_overflow. Qed.
Print Assumptions C38_receive_buffer_refuted.
(** It is the only case: every block that overruns the buffer is a block of at
    least 1024 bytes waiting in the unencrypted socket. *)
Theorem C38_receive_buffer_partial : forall ops e,
  In (Undef (UB_BufferOverflow BufRecv)) (fst (run ops (initial_world e))) ->
  exists fd d, In (EvRecv fd (RData d)) (w_trace (snd (run ops (initial_world e)))) /\ (1024 <= length d)%nat.
Proof. exact recv_only_then. Qed.
Print Assumptions C38_receive_buffer_partial.
Example C38_example :
  result [ONew KPlain server 25; OSend 0 hi]
    (wire (told "220 ready" ++ [RData (B "250-" ++ repeat "x"%char 1019)] ++ [RData (CRLF ++ B "250 ok" ++ CRLF); RErr 11] ++ mail_replies))
  = [Done 0; Done 0].
Proof. vm_compute. reflexivity. Qed.

(** C58: the name of the TLS endpoint fits. *)
Theorem C58_endpoint_fits_partial : forall ops e,
  (forall o s, In o ops -> op_server o = Some s -> (slen (cstr s) <= 1017)%N) ->
  (forall o n, In o ops -> op_port o = Some n -> (n < 65536)%N) ->
  ~ In (Undef (UB_BufferOverflow BufEndpoint)) (fst (run ops (initial_world e))).
Proof. exact (fun ops e HS HP => endpoint_fits ops e 1017 HS (or_intror (conj (N.le_refl 1017) HP))). Qed.
Print Assumptions C58_endpoint_fits_partial.
Theorem C58_endpoint_fits_any_port_partial : forall ops e,
  (forall o s, In o ops -> op_server o = Some s -> (slen (cstr s) <= 1012)%N) ->
  ~ In (Undef (UB_BufferOverflow BufEndpoint)) (fst (run ops (initial_world e))).
Proof. exact (fun ops e HS => endpoint_fits ops e 1012 HS (or_introl (N.le_refl 1012))). Qed.
Print Assumptions C58_endpoint_fits_any_port_partial.
(** The bound is the best possible. *)
Theorem C58_long_name_refuted : exists ops e,
  (forall o s, In o ops -> op_server o = Some s -> (slen (cstr s) <= 1018)%N) /\
  (forall o n, In o ops -> op_port o = Some n -> (n < 65536)%N) /\
  In (Undef (UB_BufferOverflow BufEndpoint)) (fst (run ops (initial_world e))).
Proof. exact endpoint_overflow. Qed.
Print Assumptions C58_long_name_refuted.
Example C58_example :
  result [ONew KForced (Some (repeat "a"%char 1017)) 65535; OSend 0 hi]
    (tls_wire [] (told "220 ready" ++ told "250 ok" ++ told "250 ok" ++ told "250 ok" ++ told "354 go" ++ told "250 ok") [good_tls])
  = [Done 0; Done 0].
Proof. vm_compute. reflexivity. Qed.
