(** Which server a connection goes to when several threads look up names. *)

From Coq Require Import List NArith ZArith Bool.
From Verif Require Import Base ModelAddress ModelAttachment ModelMessage ModelState ModelWorld SpecThreads ModelThreads.
Import ListNotations.
Open Scope Z_scope.

(** A schedule of the actions of all threads, at any point of their runs. *)
Definition interleaved (P : nat -> list op) (E : nat -> env) (T : schedule action) : Prop :=
  forall i, exists later, actions (w_trace (snd (run (P i) (initial_world (E i))))) = thread i T ++ later.

(** The name that thread [i] asked for last (the name of the server that the
    client was configured with: C52). *)
Definition asked (i : nat) (T : schedule action) : option str :=
  fold_left (fun a x => match x with Call (EvResolve h _) => Some h | _ => a end) (thread i T) None.

(** Every connect() of a thread goes to the address of the server it asked for. *)
Definition right_server (T : schedule action) : Prop :=
  forall before i fd port ok after, T = before ++ (i, Call (EvConnect fd port ok)) :: after ->
    exists h, asked i before = Some h /\ copied (addresses_after before) i = Some h.

(** No thread looks up a name while another one is between its own lookup and
    the copying of the address. *)
Definition undisturbed (T : schedule action) : Prop :=
  forall T1 i h T2 T3, T = T1 ++ (i, Call (EvResolve h true)) :: T2 ++ (i, CopyAddress) :: T3 ->
    thread i T2 = [] -> forall j h' ok, ~ In (j, Call (EvResolve h' ok)) T2.
