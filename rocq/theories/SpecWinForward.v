(** A computer on which the calls that only Windows makes succeed. *)

From Coq Require Import Ascii String List NArith ZArith Bool.
From Verif Require Import Base ModelMessage ModelState ModelWin SpecForward SpecWinPair.
Import ListNotations.

(** WSAStartup, the look-up of the name, WSACleanup, ioctlsocket and the opening
    of the certificate store succeed. *)
Definition calm (x : wenv) : Prop := x_start x = [] /\ x_addr x = [] /\ x_clean x = [] /\ x_ioctl x = [] /\ x_store x = [].

(** The calls that both builds make succeed at once. *)
Record wreliable (e : env) : Prop := mkWReliable {
  wr_send : e_send e = []; wr_puts : e_bputs e = []; wr_conn : e_conn e = [];
  wr_sock : exists fd more, e_sock e = SkFd fd :: more }.
(** The TLS negotiation succeeds with an acceptable certificate. *)
Definition wnegotiates (c : client) (e : env) : Prop :=
  exists t more, e_tls e = t :: more /\ t_ctx t = true /\ t_bio t = true /\ t_connect t = true /\ t_handshake t = true /\ t_cert t = true /\
    (t_verify t = 0%Z \/ (t_verify t = 18%Z /\ c_selfsigned c = true)).
(** A user name and a password of at most 10^9 bytes together. *)
Definition short_login (c : client) : Prop := forall cr, c_cred c = Some cr -> short_secret cr.

(** A text that is sent in clear has at most 2^31 - 1 bytes. *)
Definition fits (ev : event) : Prop := match ev with EvSend _ d _ => (slen d <= 2147483647)%N | _ => True end.
(** And sockets are created and connected at the first attempt. *)
Definition ordinary (ev : event) : Prop :=
  match ev with
  | EvSocket (SkErr _) => False
  | EvConnect _ _ ok => ok = true
  | _ => fits ev
  end.
