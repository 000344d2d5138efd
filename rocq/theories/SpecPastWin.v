(** Specification for histories on Windows. *)

From Coq Require Import List Bool.
From Verif Require Import Base ModelState ModelWorld ModelWin SpecPast.
Import ListNotations.

(** Two worlds in which everything is the same but the past of the clients; the
    log is part of the past only if the client has no connection and has not
    started WinSock. *)
Definition same_wworld (w1 w2 : wworld) : Prop :=
  same_world (ww w1) (ww w2) /\ ww_on w1 = ww_on w2 /\ ww_env w1 = ww_env w2 /\ ww_trace w1 = ww_trace w2 /\
  length (ww_on w1) = length (w_clients (ww w1)) /\
  forall i c1 c2, nth i (ww_on w1) false = true -> get_client (ww w1) i = Some c1 -> get_client (ww w2) i = Some c2 ->
    c_log c1 = c_log c2 /\ c_logsize c1 = c_logsize c2.
(** No assignment between client objects. *)
Definition no_assignment (o : op) : Prop :=
  match o with OCopyAssign _ _ | OMoveAssign _ _ => False | _ => True end.
(** The world with another client in place of number [i]. *)
Definition with_client (i : nat) (c : client) (w : wworld) : wworld :=
  mkWW (put_client i (Some c) (ww w)) (ww_on w) (ww_env w) (ww_trace w).
