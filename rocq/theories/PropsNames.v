(** C72: is the server at the other end of a TLS session the configured one?
    [EvVerify b res ok] records the certificate check of session [b]: its
    result [res] and whether the certificate carries the configured server's
    name; [EvPuts b d r] is a write to that session. *)

From Coq Require Import Ascii String List NArith ZArith Bool.
From Verif Require Import Base ModelAddress ModelAttachment ModelMessage ModelReply ModelState ModelClient
  ModelWorld SpecNames ProofNames Samples.
Import ListNotations.
Open Scope Z_scope.

(** C72: the property, for a forced client with a certificate chain that
    verifies: what it writes over TLS reaches a server whose certificate carries
    the configured name.  It fails: the password is written to a server with
    somebody else's certificate, and the send succeeds. *)
Theorem C72_wrong_host_refuted : exists ops e t1 t2,
  events ops e = t1 ++ EvPuts 1 (B "AUTH PLAIN AGpvZQBzZWNyZXQ=" ++ CRLF) WFull :: t2 /\
  In (EvVerify 1 0 false) t1 /\ ~ named_right 1 (events ops e) /\
  result ops e = [Done 0; Done 0; Done 0] /\
  ops = [ONew KForced server 465; OSetCred 0 joe_cred; OSend 0 hi].
Proof.
  exists [ONew KForced server 465; OSetCred 0 joe_cred; OSend 0 hi].
  exists (all_misnamed (tls_wire [] (told "220 ready" ++ tls_ident ++ said "235 ok" ++ mail_replies) [good_tls])).
  match goal with |- exists _ _, ?l = _ /\ _ => exists (firstn 15 l), (skipn 16 l) end.
  vm_compute. split; [reflexivity|]. split; [repeat (try (left; reflexivity); right)|].
  split; [|split; reflexivity].
  intros (res & H). repeat destruct H as [H|H]; try discriminate H. exact H.
Qed.
Print Assumptions C72_wrong_host_refuted.

(** C72: it fails everywhere: no program can tell.  If no certificate carried
    the server's name, every operation would have the same outcome, every client
    the same state, and the trace would be the same but for what the
    certificates say. *)
Theorem C72_names_ignored : forall ops e,
  fst (run ops (initial_world (all_misnamed e))) = fst (run ops (initial_world e)) /\
  w_clients (snd (run ops (initial_world (all_misnamed e)))) = w_clients (snd (run ops (initial_world e))) /\
  w_trace (snd (run ops (initial_world (all_misnamed e)))) =
    map misname_event (w_trace (snd (run ops (initial_world e)))).
Proof. exact program_misnamed. Qed.
Print Assumptions C72_names_ignored.

(** C72: so whatever a program writes to its server over TLS, it would write to
    any server with a valid certificate. *)
Theorem C72_any_certificate : forall ops e b d r,
  In (EvPuts b d r) (w_trace (snd (run ops (initial_world e)))) ->
  In (EvPuts b d r) (w_trace (snd (run ops (initial_world (all_misnamed e))))) /\
  ~ named_right b (w_trace (snd (run ops (initial_world (all_misnamed e))))).
Proof. exact writes_misnamed. Qed.
Print Assumptions C72_any_certificate.

(** The server with the right name, and the one with the wrong name. *)
Example C72_example : let ops := [ONew KForced server 465; OSetCred 0 joe_cred; OSend 0 hi] in
  let e := tls_wire [] (told "220 ready" ++ tls_ident ++ said "235 ok" ++ mail_replies) [good_tls] in
  named_right 1 (events ops e) /\ result ops e = [Done 0; Done 0; Done 0] /\
  In (EvPuts 1 (B "AUTH PLAIN AGpvZQBzZWNyZXQ=" ++ CRLF) WFull) (events ops e).
Proof.
  vm_compute. split; [exists 0; repeat (try (left; reflexivity); right)|].
  split; [reflexivity|repeat (try (left; reflexivity); right)].
Qed.
