(** The lookup of a server's address when several threads do it. *)

From Coq Require Import List NArith ZArith Bool.
From Verif Require Import Base ModelState ModelWorld SpecThreads.
Import ListNotations.

(** The actions of a thread: its calls to the system, and the copying of the
    address (smtpclientbase.cpp:516-518: memcpy from [host->h_addr] into the
    thread's own sockaddr_in), which is an action of its own because
    [host] points into memory of the C library that all threads share: the
    struct hostent returned by gethostbyname (line 508). *)
Inductive action := Call (ev : event) | CopyAddress.

(** smtpclientbase.cpp:508-518: a lookup that succeeds is followed by the copy. *)
Definition actions (t : list event) : list action :=
  flat_map (fun ev => match ev with EvResolve _ true => [Call ev; CopyAddress] | _ => [Call ev] end) t.

(** The shared memory says whose address was found last ([None]: nobody's); each
    thread has in its sockaddr_in the address of the server it copied.  An
    address is represented by the name it was found for. *)
Record addresses := mkAddresses { found : option str; copied : nat -> option str }.

(** smtpclientbase.cpp:508 and 516 *)
Definition look_up (a : addresses) (x : nat * action) : addresses :=
  match x with
  | (i, Call (EvResolve h ok)) => mkAddresses (if ok then Some h else None) (copied a)
  | (i, CopyAddress) => mkAddresses (found a) (fun j => if Nat.eqb j i then found a else copied a j)
  | _ => a
  end.
Definition addresses_after (T : schedule action) : addresses :=
  fold_left look_up T (mkAddresses None (fun _ => None)).
