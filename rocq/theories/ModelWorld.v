(** Model of the life cycle of client objects: constructors, copy and move
    operations, setters and destructors (src/smtpclientbase.cpp:42-313,
    src/smtpclient.cpp:18-45, src/securesmtpclientbase.cpp:29-102,
    src/opportunisticsecuresmtpclient.cpp:26-49,
    src/forcedsecuresmtpclient.cpp:26-49), and of a program using several
    clients in one process. *)

From Coq Require Import Ascii String List NArith ZArith Bool.
From Verif Require Import Base ModelUtil ModelBase64 ModelAddress ModelAttachment
  ModelErrors ModelReply ModelMessage ModelState ModelClient.
Import ListNotations.
Open Scope Z_scope.

(** smtpclientbase.cpp:56-59 and 259-262: the check on the server name;
    the result is the C string stored. *)
Definition check_server_name (p : option str) : outcome str :=
  obind (null_or_blank p) (fun bad =>
  if bad then Throw
  else Done (match p with Some s => cstr s | None => [] end)).

(** smtpclientbase.cpp:42-64, smtpclientbase.h:211,217 (initializers of
    mCommunicationLogSize and mSock), securesmtpclientbase.cpp:29-35. The port
    is an unsigned int. *)
Definition client_new (k : clientkind) (server : option str) (port : N) : outcome client :=
  obind (check_server_name server) (fun name =>
  Done (mkClient k false (Some name) (u32 port) false None 0%N None 5%N 0 None None 0
          false false None None false)).

(** smtpclientbase.cpp:85,99-103: a copied log is allocated to its exact
    length. *)
Definition log_copy (l : option logbuf) : option logbuf :=
  match l with
  | None => None
  | Some lg => Some (mkLog (lg_text lg) (slen (lg_text lg) + 1)%N)
  end.

(** smtpclientbase.cpp:80-111 and securesmtpclientbase.cpp:42-48, copy
    constructor.  The size of the log (line 86) is that of the source. *)
Definition client_copy (o : client) : outcome client :=
  match c_server o with
  | None => Undef (UB_NullDeref PServer)
  | Some name =>
      Done (mkClient (c_kind o) false (Some name) (c_port o) (c_batch o)
              (log_copy (c_log o)) (c_logsize o) (c_resp o) (c_timeout o) (c_errno o)
              (c_auth o) (c_cred o) 0 (c_keep o) (c_keep o) None None (c_selfsigned o))
  end.

(** smtpclientbase.cpp:114-153 and securesmtpclientbase.cpp:51-60, copy
    assignment.  The target's socket, BIO and SSL_CTX are dropped without being
    closed or freed; the old log, response and credential are leaked (memory
    only). *)
Definition client_assign (dst o : client) : outcome client :=
  match c_server o with
  | None => Undef (UB_NullDeref PServer)
  | Some name =>
      Done (mkClient (c_kind dst) false (Some name) (c_port o) (c_batch o)
              (log_copy (c_log o)) (c_logsize o) (c_resp o) (c_timeout o) (c_errno o)
              (c_auth o) (c_cred o) 0 (c_keep o) (c_keep o) None None (c_selfsigned o))
  end.

(** smtpclientbase.cpp:156-186 and securesmtpclientbase.cpp:63-75, move
    constructor: the new object. *)
Definition client_move (o : client) : client :=
  mkClient (c_kind o) (c_conn o) (c_server o) (c_port o) (c_batch o) (c_log o) (c_logsize o)
    (c_resp o) (c_timeout o) (c_errno o) (c_auth o) (c_cred o) (c_sock o) (c_keep o)
    (c_keep o) (c_bio o) (c_ctx o) (c_selfsigned o).

(** smtpclientbase.cpp:172-184 and securesmtpclientbase.cpp:71-74: the object
    moved from. The member function pointers keep their value. *)
Definition client_moved (o : client) : client :=
  mkClient (c_kind o) false None 0%N false None 0%N None 0%N 0 None None 0 false
    (c_rawptr o) None None false.

(** smtpclientbase.cpp:189-228 and securesmtpclientbase.cpp:78-94, move
    assignment: the target.  Its former socket, BIO and SSL_CTX are overwritten
    without being closed or freed. *)
Definition client_move_assign (dst o : client) : client :=
  mkClient (c_kind dst) (c_conn o) (c_server o) (c_port o) (c_batch o) (c_log o) (c_logsize o)
    (c_resp o) (c_timeout o) (c_errno o) (c_auth o) (c_cred o) (c_sock o) (c_keep o)
    (c_keep o) (c_bio o) (c_ctx o) (c_selfsigned o).

(** smtpclientbase.cpp:258-268 [setServerName]. *)
Definition client_setServerName (c : client) (p : option str) : outcome client :=
  obind (check_server_name p) (fun name => Done (set_server (Some name) c)).

(** smtpclientbase.cpp:246-248 [getCommunicationLog]. *)
Definition getCommunicationLog (c : client) : str :=
  match c_log c with None => [] | Some lg => lg_text lg end.

(** ** Programs *)

(** Operations a program can perform. Clients are numbered in creation order. *)
Inductive op :=
| ONew (k : clientkind) (server : option str) (port : N)
| OCopy (src : nat)
| OMove (src : nat)
| OCopyAssign (dst src : nat)
| OMoveAssign (dst src : nat)
| OSend (i : nat) (m : message)
| OSetServer (i : nat) (server : option str)
| OSetPort (i : nat) (port : N)
| OSetBatch (i : nat) (b : bool)
| OSetTimeout (i : nat) (seconds : N)
| OSetCred (i : nat) (c : credential)
| OSetKeep (i : nat) (b : bool)
| OSetSelfSigned (i : nat) (b : bool)
| ODestroy (i : nat).

Record world := mkWorld {
  w_clients : list (option client);   (* None = destroyed *)
  w_env : env;
  w_trace : list event }.

Definition initial_world (e : env) : world := mkWorld [] e [].

Definition get_client (w : world) (i : nat) : option client :=
  match nth_error (w_clients w) i with Some (Some c) => Some c | _ => None end.

Fixpoint list_set {A} (l : list A) (i : nat) (v : A) : list A :=
  match l, i with
  | [], _ => []
  | _ :: r, O => v :: r
  | x :: r, S j => x :: list_set r j v
  end.

Definition put_client (i : nat) (v : option client) (w : world) : world :=
  mkWorld (list_set (w_clients w) i v) (w_env w) (w_trace w).
Definition push_client (c : client) (w : world) : world :=
  mkWorld (w_clients w ++ [Some c]) (w_env w) (w_trace w).

Definition kind_eqb (a b : clientkind) : bool :=
  match a, b with
  | KPlain, KPlain | KOpp, KOpp | KForced, KForced => true
  | _, _ => false
  end.

(** Run a member function on client [i]. *)
Definition run_on {A} (i : nat) (m : M A) (f : client -> option client) (w : world)
  : outcome A * world :=
  match get_client w i with
  | None => (Throw, w)
  | Some c =>
      let '(o, s) := m (mkSt c (w_env w) (w_trace w)) in
      (o, mkWorld (list_set (w_clients w) i (f (s_c s))) (s_e s) (s_t s))
  end.

(** Replace client [i] by the result of a computation without effects. *)
Definition alter (i : nat) (f : client -> outcome client) (w : world) : outcome Z * world :=
  match get_client w i with
  | None => (Throw, w)
  | Some c =>
      match f c with
      | Done c' => (Done 0, put_client i (Some c') w)
      | Throw => (Throw, w)
      | Undef u => (Undef u, w)
      | Blocked => (Blocked, w)
      | Killed => (Killed, w)
      | Diverge => (Diverge, w)
      end
  end.

Definition create (o : outcome client) (w : world) : outcome Z * world :=
  match o with
  | Done c => (Done 0, push_client c w)
  | Throw => (Throw, w)
  | Undef u => (Undef u, w)
  | Blocked => (Blocked, w)
  | Killed => (Killed, w)
  | Diverge => (Diverge, w)
  end.

(** One operation.  An operation on an object that does not exist, or between
    objects of different classes, is not a C++ program: it leaves the world
    unchanged. *)
Definition step (o : op) (w : world) : outcome Z * world :=
  match o with
  | ONew k server port => create (client_new k server port) w
  | OCopy i =>
      match get_client w i with
      | None => (Throw, w)
      | Some c => create (client_copy c) w
      end
  | OMove i =>
      match get_client w i with
      | None => (Throw, w)
      | Some c => (Done 0, push_client (client_move c) (put_client i (Some (client_moved c)) w))
      end
  | OCopyAssign i j =>
      match get_client w i, get_client w j with
      | Some d, Some c =>
          if Nat.eqb i j then (Done 0, w)
          else if kind_eqb (c_kind d) (c_kind c) then alter i (fun d => client_assign d c) w
          else (Throw, w)
      | _, _ => (Throw, w)
      end
  | OMoveAssign i j =>
      match get_client w i, get_client w j with
      | Some d, Some c =>
          if Nat.eqb i j then (Done 0, w)
          else if kind_eqb (c_kind d) (c_kind c) then
            (Done 0, put_client j (Some (client_moved c))
                       (put_client i (Some (client_move_assign d c)) w))
          else (Throw, w)
      | _, _ => (Throw, w)
      end
  | OSend i m => run_on i (sendMail m) Some w
  | OSetServer i p => alter i (fun c => client_setServerName c p) w
  | OSetPort i n => alter i (fun c => Done (set_port (u32 n) c)) w
  | OSetBatch i b => alter i (fun c => Done (set_batch b c)) w
  | OSetTimeout i n => alter i (fun c => Done (set_timeout (u32 n) c)) w
  | OSetCred i cr => alter i (fun c => Done (set_cred (Some cr) c)) w
  | OSetKeep i b => alter i (fun c => Done (set_keep b c)) w
  | OSetSelfSigned i b =>
      alter i (fun c => match c_kind c with
                        | KPlain => Throw
                        | _ => Done (set_selfsigned b c)
                        end) w
  | ODestroy i => run_on i (cleanup;; ret 0) (fun _ => None) w
  end.

(** Does the process go on after this outcome?  (An exception is assumed to be
    caught by the program.) *)
Definition continues {A} (o : outcome A) : bool :=
  match o with Done _ | Throw => true | _ => false end.

(** A program: the list of the outcomes of its operations and the final
    world. *)
Fixpoint run (ops : list op) (w : world) : list (outcome Z) * world :=
  match ops with
  | [] => ([], w)
  | o :: r =>
      let '(x, w') := step o w in
      if continues x then let '(xs, w'') := run r w' in (x :: xs, w'')
      else ([x], w')
  end.
