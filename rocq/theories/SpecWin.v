(** What a user of the Windows build expects. *)

From Coq Require Import Ascii String List NArith ZArith Bool.
From Verif Require Import Base ModelUtil ModelAddress ModelAttachment ModelMessage ModelState ModelWorld SpecDialogue ModelWin.
Import ListNotations.
Open Scope Z_scope.

(** ** The dialogue *)

(** The calls both builds make: everything but the look-up of the name and the
    switching between blocking and non-blocking mode. *)
Definition shared (ev : event) : bool :=
  match ev with EvFcntl _ _ _ | EvResolve _ _ => false | _ => true end.
Definition talk (t : list event) : list event := filter shared t.
Definition wtalk (t : list wevent) : list event :=
  flat_map (fun ev => match ev with WSock e => if shared e then [e] else [] | _ => [] end) t.

(** Nothing that only Windows does has failed, and no connection attempt. *)
Definition smooth (ev : wevent) : Prop :=
  match ev with
  | WStartup r | WCleanup r | WAddr _ _ r => r = 0
  | WOpenStore r => r = None
  | WTooLong _ => False
  | WSock (EvSocket (SkErr _)) => False
  | WSock (EvConnect _ _ ok) => ok = true
  | _ => True
  end.

(** The same world seen by the POSIX build: names are found, the trusted
    certificates are loaded, and fcntl gives the answers [f]. *)
Definition trusting (t : tls_res) : tls_res :=
  mkTls (t_ctx t) (t_bio t) true (t_connect t) (t_handshake t) (t_cert t) (t_verify t) (t_host t) (t_err t).
Definition posix_env (f : list (option Z)) (e : env) : env :=
  mkEnv (e_recv e) (e_send e) (e_bread e) (e_bputs e) (e_sock e) [] f (e_conn e)
    (e_select e) (e_sopt e) (map trusting (e_tls e)) (e_fs e) (e_strerror e) (e_x509str e) (e_next e).

(** ** References to WinSock *)

(** Successful calls of WSAStartup and of WSACleanup. *)
Definition startups (t : list wevent) : nat :=
  length (filter (fun ev => match ev with WStartup r => r =? 0 | _ => false end) t).
Definition cleanups (t : list wevent) : nat :=
  length (filter (fun ev => match ev with WCleanup r => r =? 0 | _ => false end) t).

(** Data written to or read from a connection: over a socket (0 is no socket),
    or over TLS. *)
Definition transfers (ev : event) : bool :=
  match ev with
  | EvSend fd _ _ | EvRecv fd _ => negb (fd =? 0)
  | EvPuts _ _ _ | EvRead _ _ => true
  | _ => false
  end.

(** The calls that make a connection. *)
Definition starts (ev : wevent) : bool :=
  match ev with
  | WStartup _ | WAddr _ _ _ | WSock (EvSocket _) | WSock (EvConnect _ _ _) => true
  | _ => false
  end.

(** Programs that move no client. *)
Definition moves (o : op) : bool :=
  match o with OMove _ | OMoveAssign _ _ => true | _ => false end.

(** Clients that may not send any more: those that had to connect for a message
    and failed to send it, those moved from and those assigned to.  [t]: the
    calls made by the operation. *)
Definition spends (o : op) (x : outcome Z) (t : list wevent) : list nat :=
  match o with
  | OSend i _ =>
      match x with
      | Done r => if (r =? 0) || negb (existsb starts t) then [] else [i]
      | _ => [i]
      end
  | OMove i => [i]
  | OCopyAssign i _ => [i]
  | OMoveAssign i j => [i; j]
  | _ => []
  end.
(** A program that does not send with such clients, and whose destructors end
    normally. *)
Fixpoint tidy (spent : list nat) (ops : list op) (w : wworld) : Prop :=
  match ops with
  | [] => True
  | o :: r =>
      let '(x, w') := wstep o w in
      (forall i m, o = OSend i m -> ~ In i spent) /\
      (forall i, o = ODestroy i -> x = Done 0) /\
      (continues x = true -> tidy (spends o x (skipn (length (ww_trace w)) (ww_trace w')) ++ spent) r w')
  end.

(** ** Connecting *)

(** The code that reports a failed call of a connection attempt. *)
Definition failed (ev : wevent) : option Z :=
  match ev with
  | WStartup r => if r =? 0 then None else Some (-4)
  | WAddr _ _ r => if r =? 0 then None else Some (-5)
  | WSock (EvSocket (SkErr _)) => Some (-1)
  | WSock (EvConnect _ _ false) => Some (-2)
  | _ => None
  end.

(** Certificate stores opened and closed. *)
Definition opened (t : list wevent) : nat :=
  length (filter (fun ev => match ev with WOpenStore None => true | _ => false end) t).
Definition closed (t : list wevent) : nat :=
  length (filter (fun ev => match ev with WCloseStore => true | _ => false end) t).

(** ** Sending *)

(** No To or Cc field was left out for its size, WSACleanup did not fail. *)
Definition fields_fit (t : list wevent) : Prop := forall d, In (WTooLong d) t -> ~ recipient_field d.
Definition winsock_released (t : list wevent) : Prop := forall r, In (WCleanup r) t -> r = 0.
