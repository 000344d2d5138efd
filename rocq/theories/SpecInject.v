(** Specification for the boundary between clear text and TLS. *)

From Coq Require Import String List NArith ZArith Bool.
From Verif Require Import Base ModelMessage ModelState ModelWorld.
Import ListNotations.

(** What is said and heard over TLS, in order. *)
Definition over_tls (ev : event) : bool := match ev with EvPuts _ _ _ | EvRead _ _ => true | _ => false end.
Definition conversation (t : list event) : list event := filter over_tls t.
(** A TLS channel is created after the events [t]. *)
Definition started_since (t t' : list event) : Prop := exists n id fd, t' = t ++ n /\ In (EvBioNew id fd) n.
Definition begins {A} (a b : list A) : Prop := exists rest, b = a ++ rest.

(** Two environments in which TLS negotiations, TLS channels and files behave in
    the same way.  Everything else may differ: name lookup, sockets, what is
    received in clear and when, whether it can be written, error texts. *)
Definition same_tls_side (e1 e2 : env) : Prop :=
  e_tls e1 = e_tls e2 /\ e_bread e1 = e_bread e2 /\ e_bputs e1 = e_bputs e2 /\ e_fs e1 = e_fs e2 /\ e_next e1 = e_next e2.
Definition in_env (e : env) (w : world) : world := mkWorld (w_clients w) e (w_trace w).

(** A client of a class that encrypts, not connected, without a TLS channel, and
    not told to stay with clear text. *)
Definition unconnected (c : client) : Prop :=
  c_kind c <> KPlain /\ c_conn c = false /\ c_bio c = None /\ c_rawptr c = false.
