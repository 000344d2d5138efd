(** Ownership of sockets, SSL_CTX objects and BIO objects, read off the events
    of a run. *)

From Coq Require Import Ascii String List NArith ZArith Bool.
From Verif Require Import Base ModelUtil ModelAddress ModelAttachment ModelMessage ModelState ModelWorld.
Import ListNotations.
Open Scope Z_scope.

(** A kind of resource: what an event acquires, what it releases, and what a
    client object refers to. *)
Record resource := mkResource {
  acquires : event -> list Z;
  releases : event -> list Z;
  refers : client -> list Z }.

(** Socket descriptors.  close(-1) releases nothing (it fails with EBADF); a
    client whose descriptor member is 0 or negative holds no socket. *)
Definition sockets : resource := mkResource
  (fun ev => match ev with EvSocket (SkFd n) => [Z.of_N n] | _ => [] end)
  (fun ev => match ev with EvClose fd => if fd <? 0 then [] else [fd] | _ => [] end)
  (fun c => if c_sock c <=? 0 then [] else [c_sock c]).
Definition contexts : resource := mkResource
  (fun ev => match ev with EvCtxNew i => [Z.of_nat i] | _ => [] end)
  (fun ev => match ev with EvCtxFree i => [Z.of_nat i] | _ => [] end)
  (fun c => match c_ctx c with Some i => [Z.of_nat i] | None => [] end).
Definition bios : resource := mkResource
  (fun ev => match ev with EvBioNew i _ => [Z.of_nat i] | _ => [] end)
  (fun ev => match ev with EvBioFree i => [Z.of_nat i] | _ => [] end)
  (fun c => match c_bio c with Some b => [Z.of_nat (bio_id b)] | None => [] end).

(** The resources acquired and not released, after the events [t]. *)
Definition open_after (R : resource) (open : list Z) (ev : event) : list Z :=
  acquires R ev ++ filter (fun x => negb (existsb (Z.eqb x) (releases R ev))) open.
Definition open_in (R : resource) (t : list event) : list Z := fold_left (open_after R) t [].

(** What the operating system guarantees: a descriptor it hands out is not one
    that is still open. *)
Definition fresh (R : resource) (t : list event) : Prop :=
  forall t1 ev t2 x, t = t1 ++ ev :: t2 -> In x (acquires R ev) -> ~ In x (open_in R t1).

(** Only resources that are open get released: nothing is released twice. *)
Definition releases_open (R : resource) (t : list event) : Prop :=
  forall t1 ev t2 x, t = t1 ++ ev :: t2 -> In x (releases R ev) -> In x (open_in R t1).

(** Different clients hold different resources. *)
Definition held_apart (R : resource) (w : world) : Prop :=
  forall i j ci cj x, i <> j -> get_client w i = Some ci -> get_client w j = Some cj ->
    In x (refers R ci) -> ~ In x (refers R cj).
(** What a client holds is open. *)
Definition held_open (R : resource) (w : world) : Prop :=
  forall i c x, get_client w i = Some c -> In x (refers R c) -> In x (open_in R (w_trace w)).

(** Nothing is leaked when every open descriptor belongs to a client.
    (Descriptor 0 is never closed by the library: it uses 0 for "no socket".) *)
Definition nothing_lost (w : world) : Prop :=
  forall x, In x (open_in sockets (w_trace w)) -> x <> 0 ->
    exists i c, get_client w i = Some c /\ In x (refers sockets c).

(** A client that has a socket but no connection: its last connection attempt
    failed. *)
Definition half_open (c : client) : Prop := c_conn c = false /\ c_sock c <> 0.

(** Operations that do not overwrite a descriptor: no sending through a client
    whose last connection attempt failed, no assignment to a client that holds
    a socket. *)
Definition careful_op (o : op) (w : world) : Prop :=
  match o with
  | OSend i _ => forall c, get_client w i = Some c -> ~ half_open c
  | OCopyAssign i j | OMoveAssign i j => i <> j -> forall c, get_client w i = Some c -> refers sockets c = []
  | _ => True
  end.
Definition careful (ops : list op) (w : world) : Prop :=
  forall before o after, ops = before ++ o :: after -> careful_op o (snd (run before w)).

(** Every destructor ran to its end. *)
Definition destroyed_ok (ops : list op) (xs : list (outcome Z)) : Prop :=
  forall k i x, nth_error ops k = Some (ODestroy i) -> nth_error xs k = Some x -> x = Done 0.
(** Every mail was sent. *)
Definition all_sent (ops : list op) (xs : list (outcome Z)) : Prop :=
  forall k i m x, nth_error ops k = Some (OSend i m) -> nth_error xs k = Some x -> x = Done 0.

(** ** Copies and moves of clients *)

(** What a program configures through the constructor and the setters. *)
Definition same_settings (c c' : client) : Prop :=
  c_kind c' = c_kind c /\ c_server c' = c_server c /\ c_port c' = c_port c /\ c_batch c' = c_batch c /\
  c_timeout c' = c_timeout c /\ c_cred c' = c_cred c /\ c_keep c' = c_keep c /\ c_selfsigned c' = c_selfsigned c.
(** What a program reads back: log, last response, last error number,
    authentication options. *)
Definition same_results (c c' : client) : Prop :=
  getCommunicationLog c' = getCommunicationLog c /\ c_resp c' = c_resp c /\ c_errno c' = c_errno c /\ c_auth c' = c_auth c.
Definition disconnected (c : client) : Prop :=
  c_conn c = false /\ c_sock c = 0 /\ c_bio c = None /\ c_ctx c = None.
Definition same_connection (c c' : client) : Prop :=
  c_conn c' = c_conn c /\ c_sock c' = c_sock c /\ c_bio c' = c_bio c /\ c_ctx c' = c_ctx c.
(** A client without server, credential, results or connection. *)
Definition emptied (c : client) : Prop :=
  disconnected c /\ c_server c = None /\ c_cred c = None /\ getCommunicationLog c = [] /\ c_resp c = None /\ c_auth c = None.
(** Nothing happened outside the program: no input, no event. *)
Definition no_effect (w w' : world) : Prop := w_env w' = w_env w /\ w_trace w' = w_trace w.
(** The clients not in [l] are as before. *)
Definition others_same (l : list nat) (w w' : world) : Prop :=
  forall k, ~ In k l -> get_client w' k = get_client w k.
(** The number of the next client. *)
Definition next_client (w : world) : nat := length (w_clients w).
