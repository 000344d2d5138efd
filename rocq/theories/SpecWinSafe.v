(** When a program built for Windows may run into undefined behaviour. *)

From Coq Require Import Ascii String List NArith ZArith Bool.
From Verif Require Import Base ModelAddress ModelAttachment ModelMessage ModelState ModelWorld ModelWin SpecSafety SpecOwn.
Import ListNotations.
Open Scope Z_scope.

(** The calls of a run that are not specific to Windows. *)
Definition common (t : list wevent) : list event :=
  flat_map (fun ev => match ev with WSock e => [e] | _ => [] end) t.

(** A client was moved from or assigned to. *)
Definition reassigns (o : op) : bool :=
  match o with OMove _ | OMoveAssign _ _ | OCopyAssign _ _ => true | _ => false end.

(** select() and gethostbyname() are not called on Windows. *)
Definition posix_only (u : ub) : bool :=
  match u with UB_FdSet | UB_BufferOverflow BufHost => true | _ => false end.

(** The causes on Windows: those of SpecSafety.v, and a failing WSACleanup
    whose message is written to a log that a move has taken away, or that an
    assignment has replaced by a smaller one. *)
Inductive wcause (ops : list op) (t : list wevent) : ub -> Prop :=
| wcause_same : forall u, posix_only u = false -> cause ops (common t) u -> wcause ops t u
| wcause_log : forall u, u = UB_NullDeref PLog \/ u = UB_BufferOverflow BufLog ->
    (exists o, In o ops /\ reassigns o = true) -> (exists r, In (WCleanup r) t /\ r <> 0) -> wcause ops t u.

(** The decision of the TLS negotiation on Windows: [store] is the error of
    CertOpenSystemStore, if it failed; the certificate path of the POSIX build
    is not used (compare SpecTls.v). *)
Definition win_acceptable (accept_self_signed : bool) (store : option Z) (r : tls_res) : Prop :=
  t_ctx r = true /\ t_bio r = true /\ store = None /\ t_connect r = true /\ t_handshake r = true /\
  t_cert r = true /\ (t_verify r = 0 \/ (t_verify r = 18 /\ accept_self_signed = true)).
(** The documented code of the first step that failed (sslerrors.h). *)
Definition win_tls_error (store : option Z) (r : tls_res) : Z :=
  if negb (t_ctx r) then -51 else
  if negb (t_bio r) then -52 else
  if store then -53 else
  if negb (t_connect r) then -55 else
  if negb (t_handshake r) then -56 else
  if negb (t_cert r) then -57 else -58.

(** Only open resources are released, different clients hold different ones,
    and what a client holds is open (compare SpecOwn.v). *)
Definition ownership (R : resource) (w : wworld) : Prop :=
  releases_open R (common (ww_trace w)) /\ held_apart R (ww w) /\
  (forall i c x, get_client (ww w) i = Some c -> In x (refers R c) -> In x (open_in R (common (ww_trace w)))).
