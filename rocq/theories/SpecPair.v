(** Pairs of runs: programs that differ in what is secret, networks that cut the
    same bytes differently. *)

From Coq Require Import Ascii String List NArith ZArith Bool.
From Verif Require Import Base ModelMessage ModelState ModelWorld SpecAuth.
Import ListNotations.

(** ** Secrets *)

(** The same operation, up to the user name and the password of a credential. *)
Inductive same_but_secret : op -> op -> Prop :=
| sbs_same : forall o, same_but_secret o o
| sbs_cred : forall i c1 c2, cr_method c1 = cr_method c2 -> same_but_secret (OSetCred i c1) (OSetCred i c2).

(** The four forms of a line that carries something secret. *)
Inductive secret_form := InPlain | InUser | InPassword | InXoauth2.
Definition secret_line (f : secret_form) (c : credential) (d : str) : Prop :=
  match f with
  | InPlain => base64_line (B "AUTH PLAIN ") ([NUL] ++ cr_user c ++ [NUL] ++ cr_pass c) d
  | InUser => base64_line [] (cr_user c) d
  | InPassword => base64_line [] (cr_pass c) d
  | InXoauth2 => base64_line (B "AUTH XOAUTH2 ") (B "user=" ++ cr_user c ++ [SOH_char] ++ B "auth=Bearer " ++ cr_pass c ++ [SOH_char; SOH_char]) d
  end.
(** Two events are equal, or they write, on the same channel and with the same
    result, the same form of line for the credentials [c1] and [c2]. *)
Definition same_event (secrets : list (credential * credential)) (e1 e2 : event) : Prop :=
  e1 = e2 \/ exists f c1 c2 d1 d2, In (c1, c2) secrets /\ secret_line f c1 d1 /\ secret_line f c2 d2 /\
    ((exists fd r, e1 = EvSend fd d1 r /\ e2 = EvSend fd d2 r) \/ exists b r, e1 = EvPuts b d1 r /\ e2 = EvPuts b d2 r).
Definition secret_of (p : op * op) : list (credential * credential) :=
  match p with (OSetCred _ c1, OSetCred _ c2) => [(c1, c2)] | _ => [] end.
Definition secrets_of (p1 p2 : list op) : list (credential * credential) := flat_map secret_of (combine p1 p2).

(** ** Segmentation *)

(** Pieces the client can read one by one: not empty, smaller than its buffer,
    without a NUL. *)
Definition cut (a : list str) : Prop := Forall (fun d => d <> [] /\ (length d < 1024)%nat /\ ~ In NUL d) a.
(** The same results of recv, except that the bytes that arrive before a recv
    that reports that there are none may be cut differently. *)
Inductive resplit : list recv_res -> list recv_res -> Prop :=
| rs_nil : resplit [] []
| rs_any : forall x l1 l2, resplit l1 l2 -> resplit (x :: l1) (x :: l2)
| rs_burst : forall a b err l1 l2, cut a -> cut b -> concat a = concat b -> resplit l1 l2 ->
    resplit (map RData a ++ RErr err :: l1) (map RData b ++ RErr err :: l2).
(** ... but the first data received are cut in the same way. *)
Inductive resplit_later : list recv_res -> list recv_res -> Prop :=
| rl_nil : resplit_later [] []
| rl_wait : forall x l1 l2, x = RData [] \/ (exists err, x = RErr err) -> resplit_later l1 l2 -> resplit_later (x :: l1) (x :: l2)
| rl_first : forall d l1 l2, d <> [] -> resplit l1 l2 -> resplit_later (RData d :: l1) (RData d :: l2).

(** What a program does besides reading. *)
Definition is_recv (e : event) : bool := match e with EvRecv _ _ => true | _ => false end.
Definition besides_recv (t : list event) : list event := filter (fun e => negb (is_recv e)) t.

(** The bytes that a list of results delivers. *)
Fixpoint bytes_of (l : list recv_res) : str :=
  match l with
  | [] => []
  | RData d :: r => d ++ bytes_of r
  | RErr _ :: r => bytes_of r
  end.
(** The world in which the socket delivers [l]. *)
Definition with_recv (l : list recv_res) (w : world) : world := mkWorld (w_clients w) (set_recv l (w_env w)) (w_trace w).
Definition with_bread (l : list recv_res) (w : world) : world := mkWorld (w_clients w) (set_bread l (w_env w)) (w_trace w).
