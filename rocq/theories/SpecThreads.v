(** Several threads of one process, each working with client objects of its
    own: what a schedule of their actions is, and which socket descriptor an
    action is about. *)

From Coq Require Import List NArith ZArith Bool.
From Verif Require Import Base ModelUtil ModelAddress ModelAttachment ModelMessage ModelState ModelWorld SpecOwn SpecWinSafe ModelWin.
Import ListNotations.
Open Scope Z_scope.

(** A schedule: the actions of all threads in the order in which the operating
    system sees them, each with the number of the thread it comes from. *)
Definition schedule (A : Type) := list (nat * A).

(** What thread [i] did in a schedule, and what the whole process did. *)
Definition thread {A} (i : nat) (T : schedule A) : list A :=
  map snd (filter (fun x => Nat.eqb (fst x) i) T).
Definition process {A} (T : schedule A) : list A := map snd T.

(** [T] is a schedule of the threads that run the programs [P 0], [P 1], ...
    (thread [i] gets the answers [E i] from its environment): each thread has
    come to some point of its run, in its own order.  Nothing is assumed about
    how the threads are interleaved, how far each one has come, or how many
    threads there are. *)
Definition scheduled (P : nat -> list op) (E : nat -> env) (T : schedule event) : Prop :=
  forall i, exists later, w_trace (snd (run (P i) (initial_world (E i)))) = thread i T ++ later.

(** The same for programs of the Windows build. *)
Definition scheduled_on_windows (P : nat -> list op) (E : nat -> env) (X : nat -> wenv) (T : schedule wevent) : Prop :=
  forall i, exists later, ww_trace (snd (wrun (P i) (initial_wworld (E i) (X i)))) = thread i T ++ later.
(** The actions that both systems have. *)
Definition on_both (T : schedule wevent) : schedule event :=
  flat_map (fun x => match snd x with WSock ev => [(fst x, ev)] | _ => [] end) T.

(** The sockets on which a program created BIO number [i]. *)
Definition bio_sockets (earlier : list event) (i : nat) : list Z :=
  flat_map (fun ev => match ev with EvBioNew j fd => if Nat.eqb j i then [fd] else [] | _ => [] end) earlier.

(** The descriptors an action is about, where [earlier] is what the thread did
    before.  An action on a TLS connection names a BIO; it is about the socket
    on which the thread created that BIO.  (Freeing a BIO counts as well: it can
    send the closing message of TLS.) *)
Definition uses (earlier : list event) (ev : event) : list Z :=
  match ev with
  | EvFcntl fd _ _ | EvConnect fd _ _ | EvSelect fd _ | EvClose fd
  | EvSend fd _ _ | EvRecv fd _ | EvBioNew _ fd => [fd]
  | EvPuts i _ _ | EvRead i _ | EvHandshake i _ | EvCert i _ | EvVerify i _ _ | EvBioFree i => bio_sockets earlier i
  | _ => []
  end.

(** Thread [i] has socket [fd]: it obtained it and has not closed it. *)
Definition has (i : nat) (T : schedule event) (fd : Z) : Prop := In fd (open_in sockets (thread i T)).

(** Whatever a thread does to a descriptor from [n] on, it does to a socket that
    it has and that no other thread has. *)
Definition private_from (n : Z) (T : schedule event) : Prop :=
  forall before i ev after fd, T = before ++ (i, ev) :: after -> In fd (uses (thread i before) ev) -> n <= fd ->
    has i before fd /\ forall j, j <> i -> ~ has j before fd.
(** The same for every descriptor.  (-1 is the value of the descriptor member
    that stands for "socket() failed".) *)
Definition private_sockets (T : schedule event) : Prop := private_from 0 T.

(** The actions on a TLS connection. *)
Definition on_tls (ev : event) : bool :=
  match ev with
  | EvPuts _ _ _ | EvRead _ _ | EvHandshake _ _ | EvCert _ _ | EvVerify _ _ _ | EvBioFree _ => true
  | _ => false
  end.
(** Every such action is about exactly one socket. *)
Definition tls_on_one_socket (T : schedule event) : Prop :=
  forall before i ev after, T = before ++ (i, ev) :: after -> on_tls ev = true ->
    exists fd, forall x, In x (uses (thread i before) ev) <-> x = fd.
