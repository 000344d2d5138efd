(** Specification for C72: which server a TLS session is with. *)

From Coq Require Import List NArith ZArith Bool.
From Verif Require Import Base ModelAddress ModelAttachment ModelMessage ModelReply ModelState ModelClient ModelWorld.
Import ListNotations.

(** In the trace [t] the certificate presented in session [b] was that of the
    configured server. *)
Definition named_right (b : nat) (t : list event) : Prop :=
  exists res, In (EvVerify b res true) t.

(** The same environment, except that no certificate carries the server's
    name. *)
Definition misname (t : tls_res) : tls_res :=
  mkTls (t_ctx t) (t_bio t) (t_paths t) (t_connect t) (t_handshake t) (t_cert t) (t_verify t) false (t_err t).
Definition all_misnamed (e : env) : env := set_tls (map misname (e_tls e)) e.

(** The same trace with the name check's ghost result replaced likewise. *)
Definition misname_event (ev : event) : event :=
  match ev with EvVerify b res _ => EvVerify b res false | ev => ev end.
