(** The life cycle of a connection, read off the events of a run. *)

From Coq Require Import Ascii String List NArith ZArith Bool.
From Verif Require Import Base ModelUtil ModelAddress ModelAttachment ModelMessage ModelState.
Import ListNotations.
Open Scope Z_scope.

(** Events that open a connection or negotiate TLS. *)
Definition opening_event (ev : event) : Prop :=
  match ev with
  | EvSocket _ | EvResolve _ _ | EvConnect _ _ _ | EvSelect _ _
  | EvCtxNew _ | EvBioNew _ _ | EvHandshake _ _ | EvCert _ _ | EvVerify _ _ _ => True
  | _ => False
  end.
(** Events that close one. *)
Definition closing_event (ev : event) : Prop :=
  match ev with EvClose _ | EvCtxFree _ | EvBioFree _ => True | _ => False end.

(** [ev] writes [d] to the connection held by [c]. *)
Definition written_on (c : client) (d : str) (ev : event) : Prop :=
  (exists r, ev = EvSend (c_sock c) d r) \/
  (exists b r, c_kind c <> KPlain /\ c_bio c = Some b /\ ev = EvPuts (bio_id b) d r).
(** The connection [ev] was written to is closed in [t].  (Descriptor 0 is
    never closed by the library: it uses 0 for "no socket".) *)
Definition closed_in (t : list event) (ev : event) : Prop :=
  match ev with
  | EvSend fd _ _ => fd = 0 \/ In (EvClose fd) t
  | EvPuts b _ _ => In (EvBioFree b) t
  | _ => False
  end.
Definition is_write (ev : event) : Prop :=
  match ev with EvSend _ _ _ | EvPuts _ _ _ => True | _ => False end.
