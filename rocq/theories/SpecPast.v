(** Specification for histories: what a client keeps from earlier calls. *)

From Coq Require Import String List NArith ZArith Bool.
From Verif Require Import Base ModelState ModelWorld.
Import ListNotations.

(** Two clients that differ at most in what earlier calls have left behind: the
    last answer of a server, the last error number, the mechanisms a server
    offered and, without a connection, the communication log. *)
Definition same_but_past (c1 c2 : client) : Prop :=
  c_kind c1 = c_kind c2 /\ c_conn c1 = c_conn c2 /\ c_server c1 = c_server c2 /\ c_port c1 = c_port c2 /\
  c_batch c1 = c_batch c2 /\ c_timeout c1 = c_timeout c2 /\ c_cred c1 = c_cred c2 /\ c_sock c1 = c_sock c2 /\
  c_keep c1 = c_keep c2 /\ c_rawptr c1 = c_rawptr c2 /\ c_bio c1 = c_bio c2 /\ c_ctx c1 = c_ctx c2 /\
  c_selfsigned c1 = c_selfsigned c2 /\
  (c_conn c1 = true -> c_log c1 = c_log c2 /\ c_logsize c1 = c_logsize c2).

(** Two worlds in which everything is the same but the past of the clients. *)
Definition same_object (o1 o2 : option client) : Prop :=
  match o1, o2 with
  | Some c1, Some c2 => same_but_past c1 c2
  | None, None => True
  | _, _ => False
  end.
Definition same_world (w1 w2 : world) : Prop :=
  Forall2 same_object (w_clients w1) (w_clients w2) /\ w_env w1 = w_env w2 /\ w_trace w1 = w_trace w2.

(** A client with the settings of [c] that has done nothing. *)
Definition as_new (c : client) : client :=
  mkClient (c_kind c) false (c_server c) (c_port c) (c_batch c) None 0%N None (c_timeout c) 0%Z None (c_cred c) 0%Z
    (c_keep c) (c_rawptr c) None None (c_selfsigned c).
(** Nothing is left of the connections of [c]. *)
Definition at_rest (c : client) : Prop := c_conn c = false /\ c_sock c = 0%Z /\ c_bio c = None /\ c_ctx c = None.
