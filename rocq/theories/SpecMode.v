(** Blocking and non-blocking sockets, read off the events of a run. *)

From Coq Require Import Ascii String List NArith ZArith Bool.
From Verif Require Import Base ModelUtil ModelAddress ModelAttachment ModelMessage ModelState.
Import ListNotations.
Open Scope Z_scope.

(** No attempt to read or change the mode of a socket failed. *)
Definition switched (ev : event) : Prop :=
  match ev with EvFcntl _ _ ok => ok = true | _ => True end.

(** Is [fd] in non-blocking mode after the events [t]?  New sockets block. *)
Definition mode_after (fd : Z) (b : bool) (ev : event) : bool :=
  match ev with
  | EvSocket (SkFd n) => if Z.of_N n =? fd then false else b
  | EvFcntl f (Some m) true => if f =? fd then m else b
  | _ => b
  end.
Definition polling (fd : Z) (t : list event) : bool := fold_left (mode_after fd) t false.

(** Something is written. *)
Definition writes (ev : event) : bool :=
  match ev with EvSend _ _ _ | EvPuts _ _ _ => true | _ => false end.
(** Something is read, or a handshake made, over TLS. *)
Definition uses_tls (ev : event) : bool :=
  match ev with EvPuts _ _ _ | EvRead _ _ | EvHandshake _ _ => true | _ => false end.

(** socket() did not return descriptor 0, which the library uses for "no socket". *)
Definition not_zero (ev : event) : Prop := ev <> EvSocket (SkFd 0).

(** ** Windows *)

From Verif Require Import ModelWin.

(** No call of ioctlsocket failed. *)
Definition wswitched (ev : wevent) : Prop :=
  match ev with WIoctl _ _ r => r = None | _ => True end.

(** Is [fd] in non-blocking mode after the events [t]?  New sockets block. *)
Definition wmode_after (fd : Z) (b : bool) (ev : wevent) : bool :=
  match ev with
  | WSock (EvSocket (SkFd n)) => if Z.of_N n =? fd then false else b
  | WIoctl f m None => if f =? fd then m else b
  | _ => b
  end.
Definition wpolling (fd : Z) (t : list wevent) : bool := fold_left (wmode_after fd) t false.

Definition wwrites (ev : wevent) : bool := match ev with WSock e => writes e | _ => false end.
Definition connects (ev : event) : bool := match ev with EvConnect _ _ _ => true | _ => false end.
