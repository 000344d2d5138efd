(** Specification for exceptions: which calls may raise one, and programs small
    enough for an address space. *)

From Coq Require Import String List NArith ZArith Bool.
From Verif Require Import Base ModelAddress ModelMessage ModelState ModelWorld SpecText.
Import ListNotations.
Open Scope N_scope.

(** An operation a C++ program can contain: the objects exist, assignments are
    between objects of one class, and only the secure classes have the setting
    for self-signed certificates. *)
Definition is_client (w : world) (i : nat) : Prop := exists c, get_client w i = Some c.
Definition same_class (w : world) (i j : nat) : Prop :=
  exists c d, get_client w i = Some c /\ get_client w j = Some d /\ c_kind c = c_kind d.
Definition legal (w : world) (o : op) : Prop :=
  match o with
  | ONew _ _ _ => True
  | OCopyAssign i j | OMoveAssign i j => same_class w i j
  | OSetSelfSigned i _ => exists c, get_client w i = Some c /\ c_kind c <> KPlain
  | OCopy i | OMove i | OSend i _ | OSetServer i _ | OSetPort i _ | OSetBatch i _
  | OSetTimeout i _ | OSetCred i _ | OSetKeep i _ | ODestroy i => is_client w i
  end.

(** The calls with an argument the library refuses. *)
Definition unacceptable (o : op) : Prop :=
  match o with
  | ONew _ server _ => ~ usable server
  | OSetServer _ server => ~ usable server
  | _ => False
  end.

(** The texts of the arguments (the files attached and the credentials are not
    counted). *)
Definition total {A} (f : A -> N) (l : list A) : N := fold_right (fun a n => f a + n) 0 l.
Definition address_size (a : address) : N := slen (a_email a) + slen (a_name a).
Definition array_size (x : arr address) : N :=
  match x with ANull _ => 0 | AArr l => total address_size l end.
(** How many addresses a message has. *)
Definition array_count (x : arr address) : N :=
  match x with ANull _ => 0 | AArr l => N.of_nat (length l) end.
Definition message_size (m : message) : N :=
  address_size (m_from m) + array_size (m_to m) + array_size (m_cc m) + array_size (m_bcc m)
  + slen (m_subject m) + slen (m_body m).
Definition message_count (m : message) : N :=
  1 + array_count (m_to m) + array_count (m_cc m) + array_count (m_bcc m).
Definition op_size (o : op) : N := match o with OSend _ m => message_size m | _ => 0 end.
Definition op_count (o : op) : N := match o with OSend _ m => message_count m | _ => 1 end.
Definition server_name (o : op) : str :=
  match o with ONew _ (Some s) _ | OSetServer _ (Some s) => s | _ => [] end.

(** What the server and the system have to say. *)
Definition received (r : recv_res) : N := match r with RData d => slen d | RErr _ => 0 end.
Definition env_size (e : env) : N := total received (e_recv e) + total received (e_bread e).
Definition env_count (e : env) : N :=
  N.of_nat (length (e_recv e) + length (e_bread e) + length (e_send e) + length (e_bputs e) + length (e_fcntl e)).

(** A program and its environment are modest if no message of the system and no
    server name is longer than [T], and if what passes through the program is
    far smaller than the address space (2^62 bytes). *)
Definition modest (T : N) (ops : list op) (e : env) : Prop :=
  (forall z, slen (e_strerror e z) <= T) /\ (forall z, slen (e_x509str e z) <= T) /\
  (forall o, In o ops -> slen (server_name o) <= T) /\
  1000 * (T + 100) * (total op_count ops + env_count e) + 100 * (total op_size ops + env_size e) <= 4611686018427387904.

(** The process survived every call of a program (it may have caught
    exceptions). *)
Definition survived (xs : list (outcome Z)) : Prop :=
  Forall (fun x => (exists n, x = Done n) \/ x = Throw) xs.
