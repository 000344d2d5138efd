(** What the getters of a client are expected to show after a history of
    operations (C67). *)

From Coq Require Import Ascii String List NArith ZArith Bool.
From Verif Require Import Base ModelMessage ModelState ModelWorld.
Import ListNotations.

(** What getServerName, getServerPort, getBatchMode, getCommandTimeout,
    getCredentials and getAcceptSelfSignedCert return. *)
Record settings := mkSettings {
  g_class : clientkind;
  g_server : option str;
  g_port : N;
  g_batch : bool;
  g_timeout : N;
  g_credential : option credential;
  g_selfsigned : bool }.

Definition shown (c : client) : settings :=
  mkSettings (c_kind c) (c_server c) (c_port c) (c_batch c) (c_timeout c) (c_cred c) (c_selfsigned c).

(** The clients of a program, in the order of their creation; [None] is a
    destroyed one. *)
Definition table := list (option settings).

Definition entry (l : table) (i : nat) : option settings := nth i l None.
Fixpoint replace (l : table) (i : nat) (v : option settings) : table :=
  match l, i with
  | [], _ => []
  | _ :: r, 0%nat => v :: r
  | x :: r, S j => x :: replace r j v
  end.
Definition change (l : table) (i : nat) (f : settings -> settings) : table :=
  match entry l i with Some g => replace l i (Some (f g)) | None => l end.
Definition add (l : table) (g : option settings) : table :=
  match g with Some _ => l ++ [g] | None => l end.

(** What is left in a client that was moved from. *)
Definition emptied_settings (g : settings) : settings := mkSettings (g_class g) None 0 false 0 None false.

(** Settings of [g] in a client of the class of [d]. *)
Definition given_to (d g : settings) : settings :=
  mkSettings (g_class d) (g_server g) (g_port g) (g_batch g) (g_timeout g) (g_credential g) (g_selfsigned g).

(** A C string argument and an unsigned int argument. *)
Definition text_of (p : option str) : option str := option_map cstr p.
Definition uint (n : N) : N := (n mod 4294967296)%N.

(** The effect of an operation that succeeded. *)
Definition effect (o : op) (l : table) : table :=
  match o with
  | ONew k server port => l ++ [Some (mkSettings k (text_of server) (uint port) false 5 None false)]
  | OCopy i => add l (entry l i)
  | OMove i => add (change l i emptied_settings) (entry l i)
  | OCopyAssign i j =>
      match entry l j with Some g => change l i (fun d => given_to d g) | None => l end
  | OMoveAssign i j =>
      if Nat.eqb i j then l
      else match entry l j with
           | Some g => change (change l i (fun d => given_to d g)) j emptied_settings
           | None => l
           end
  | OSend _ _ => l
  | OSetServer i server =>
      change l i (fun g => mkSettings (g_class g) (text_of server) (g_port g) (g_batch g) (g_timeout g) (g_credential g) (g_selfsigned g))
  | OSetPort i n =>
      change l i (fun g => mkSettings (g_class g) (g_server g) (uint n) (g_batch g) (g_timeout g) (g_credential g) (g_selfsigned g))
  | OSetBatch i b =>
      change l i (fun g => mkSettings (g_class g) (g_server g) (g_port g) b (g_timeout g) (g_credential g) (g_selfsigned g))
  | OSetTimeout i n =>
      change l i (fun g => mkSettings (g_class g) (g_server g) (g_port g) (g_batch g) (uint n) (g_credential g) (g_selfsigned g))
  | OSetCred i cr =>
      change l i (fun g => mkSettings (g_class g) (g_server g) (g_port g) (g_batch g) (g_timeout g) (Some cr) (g_selfsigned g))
  | OSetKeep _ _ => l
  | OSetSelfSigned i b =>
      change l i (fun g => mkSettings (g_class g) (g_server g) (g_port g) (g_batch g) (g_timeout g) (g_credential g) b)
  | ODestroy i => replace l i None
  end.

(** An operation that did not succeed changes nothing; a destructor always
    ends the object. *)
Definition intended (l : table) (ox : op * outcome Z) : table :=
  match ox with
  | (ODestroy i, _) => replace l i None
  | (o, Done _) => effect o l
  | _ => l
  end.
