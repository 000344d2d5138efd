(** Model of the library when memory runs out: the same functions as in
    ModelHeap, with the points where [new] may throw std::bad_alloc.
    Files: src/messageaddress.cpp, src/attachment.cpp, src/credential.cpp,
    src/message.cpp, src/smtpclientbase.cpp, src/cpp/smtpclient.cpp,
    src/cpp/forcedsecuresmtpclient.cpp, src/cpp/opportunisticsecuresmtpclient.cpp.

    Simplification: only the allocations of ModelHeap can fail, that is, those
    that end up in a member.  The temporaries of std::string inside a check
    (messageaddress.cpp:12, credential.cpp:13 and the like) come before the
    first change of the object. *)

From Coq Require Import Ascii String List NArith ZArith Bool Arith.
From Verif Require Import Base ModelUtil ModelBase64 ModelAddress ModelAttachment ModelMessage ModelReply ModelHeap.
Import ListNotations.
Open Scope nat_scope.

(** ** Allocation that fails *)

(** [Some k]: [k] more allocations succeed and the next one fails.  [None]:
    there is enough memory. *)
Definition quota := option nat.

(** How code ends: as before; with std::bad_alloc, the members of the object it
    works on being [t] at that moment; or with std::terminate, because the
    exception left a function declared noexcept. *)
Inductive sres (T A : Type) :=
| Ended (o : outcome A) (q : quota)
| NoMemory (t : T)
| Terminated.
Arguments Ended {T A}.
Arguments NoMemory {T A}.
Arguments Terminated {T A}.

Definition Mem (T A : Type) := quota -> heap -> sres T A * heap.

Definition mret {T A} (a : A) : Mem T A := fun q h => (Ended (Done a) q, h).

Definition mbind {T A C} (m : Mem T A) (k : A -> Mem T C) : Mem T C := fun q h =>
  match m q h with
  | (Ended (Done a) q', h') => k a q' h'
  | (Ended Throw q', h') => (Ended Throw q', h')
  | (Ended (Undef u) q', h') => (Ended (Undef u) q', h')
  | (Ended Blocked q', h') => (Ended Blocked q', h')
  | (Ended Killed q', h') => (Ended Killed q', h')
  | (Ended Diverge q', h') => (Ended Diverge q', h')
  | (NoMemory t, h') => (NoMemory t, h')
  | (Terminated, h') => (Terminated, h')
  end.

Notation "x <+ m ;; k" := (mbind m (fun x => k)) (at level 61, m at next level, right associativity).
Notation "m ;;+ k" := (mbind m (fun _ => k)) (at level 61, right associativity).

(** Code that allocates nothing, or whose allocation has been granted. *)
Definition lift {T A} (m : H A) : Mem T A := fun q h => let (o, h') := m h in (Ended o q, h').

(** An allocation is asked for while the members are [t]. *)
Definition tick {T} (t : T) : Mem T unit := fun q h =>
  match q with
  | None => (Ended (Done tt) None, h)
  | Some O => (NoMemory t, h)
  | Some (S k) => (Ended (Done tt) (Some k), h)
  end.

(** [m] as a part of a function whose members are [g t] when those of [m] are
    [t]. *)
Definition during {T T' A} (g : T -> T') (m : Mem T A) : Mem T' A := fun q h =>
  match m q h with
  | (Ended o q', h') => (Ended o q', h')
  | (NoMemory t, h') => (NoMemory (g t), h')
  | (Terminated, h') => (Terminated, h')
  end.

(** The same, with something that is done before the exception goes on. *)
Definition unwinding {T T' A} (act : T -> H unit) (g : T -> T') (m : Mem T A) : Mem T' A := fun q h =>
  match m q h with
  | (Ended o q', h') => (Ended o q', h')
  | (NoMemory t, h') =>
      match act t h' with
      | (Done _, h'') => (NoMemory (g t), h'')
      | (Throw, h'') => (Terminated, h'')
      | (Undef u, h'') => (Ended (Undef u) q, h'')
      | (Blocked, h'') => (Ended Blocked q, h'')
      | (Killed, h'') => (Ended Killed q, h'')
      | (Diverge, h'') => (Ended Diverge q, h'')
      end
  | (Terminated, h') => (Terminated, h')
  end.

(** A function declared noexcept. *)
Definition no_throw {T T' A} (m : Mem T A) : Mem T' A := fun q h =>
  match m q h with
  | (Ended o q', h') => (Ended o q', h')
  | (NoMemory _, h') => (Terminated, h')
  | (Terminated, h') => (Terminated, h')
  end.

(** [new char[n + 1]] and the copy of the text. *)
Definition m_dup {T} (t : T) (s : str) : Mem T ptr := tick t ;;+ lift (h_dup s).
Definition m_c_dup {T} (t : T) (c : cptr) : Mem T ptr :=
  o <+ lift (c_read c) ;;
  match o with
  | None => lift (hundef (UB_NullDeref PArg))
  | Some s => m_dup t s
  end.

(** ** MessageAddress *)

(** messageaddress.cpp:10-31.  A constructor that throws leaves no object, and
    what it allocated for the pointer members is lost. *)
Definition m_addr_new (email name : cptr) : Mem unit addr_obj :=
  e <+ lift (c_read email) ;;
  n <+ lift (c_read name) ;;
  v <+ lift (hlift (address_new e n)) ;;
  pe <+ m_dup tt (a_email v) ;;
  pn <+ m_dup tt (a_name v) ;;
  mret (mkAO pe pn).

(** messageaddress.cpp:39-48. *)
Definition m_addr_copy (o : addr_obj) : Mem unit addr_obj :=
  e <+ lift (h_text PArg (ao_email o)) ;;
  pe <+ m_dup tt e ;;
  n <+ lift (h_text PArg (ao_name o)) ;;
  pn <+ m_dup tt n ;;
  mret (mkAO pe pn).

(** messageaddress.cpp:51-67: both texts are freed first; the members are
    assigned one after the other (57, 62). *)
Definition m_addr_assign (this other : addr_obj) : Mem addr_obj addr_obj :=
  lift (h_del Many (ao_email this)) ;;+
  lift (h_del Many (ao_name this)) ;;+
  e <+ lift (h_text PArg (ao_email other)) ;;
  pe <+ m_dup this e ;;
  n <+ lift (h_text PArg (ao_name other)) ;;
  pn <+ m_dup (mkAO pe (ao_name this)) n ;;
  mret (mkAO pe pn).

(** ** Attachment *)

(** attachment.cpp:11-32. *)
Definition m_att_new (file name cid : cptr) : Mem unit att_obj :=
  f <+ lift (c_read file) ;;
  n <+ lift (c_read name) ;;
  c <+ lift (c_read cid) ;;
  v <+ lift (hlift (attachment_new f n c)) ;;
  pf <+ m_dup tt (at_file v) ;;
  pn <+ m_dup tt (at_name v) ;;
  pc <+ m_dup tt (at_cid v) ;;
  mret (mkTO pn pf pc).

(** attachment.cpp:44-57. *)
Definition m_att_copy (o : att_obj) : Mem unit att_obj :=
  n <+ lift (h_text PArg (to_name o)) ;;
  pn <+ m_dup tt n ;;
  f <+ lift (h_text PArg (to_file o)) ;;
  pf <+ m_dup tt f ;;
  c <+ lift (h_text PArg (to_cid o)) ;;
  pc <+ m_dup tt c ;;
  mret (mkTO pn pf pc).

(** attachment.cpp:60-82. *)
Definition m_att_assign (this other : att_obj) : Mem att_obj att_obj :=
  lift (h_del Many (to_name this)) ;;+
  lift (h_del Many (to_file this)) ;;+
  lift (h_del Many (to_cid this)) ;;+
  n <+ lift (h_text PArg (to_name other)) ;;
  pn <+ m_dup this n ;;
  f <+ lift (h_text PArg (to_file other)) ;;
  pf <+ m_dup (mkTO pn (to_file this) (to_cid this)) f ;;
  c <+ lift (h_text PArg (to_cid other)) ;;
  pc <+ m_dup (mkTO pn pf (to_cid this)) c ;;
  mret (mkTO pn pf pc).

(** attachment.cpp:113-118. *)
Definition m_att_setContentId (this : att_obj) (cid : cptr) : Mem att_obj att_obj :=
  p <+ m_c_dup this cid ;;
  mret (mkTO (to_name this) (to_file this) p).

(** ** Credential *)

(** credential.cpp:9-31 and 54-58. *)
Definition m_cred_new (user pass : cptr) : Mem unit cred_obj :=
  u <+ lift (c_read user) ;;
  p <+ lift (c_read pass) ;;
  v <+ lift (hlift (credential_new u p)) ;;
  pu <+ m_dup tt (cr_user v) ;;
  pp <+ m_dup tt (cr_pass v) ;;
  mret (mkCO pu pp (cr_method v)).
Definition m_cred_new3 (user pass : cptr) (m : authmethod) : Mem unit cred_obj :=
  o <+ m_cred_new user pass ;;
  mret (mkCO (co_user o) (co_pass o) m).

(** credential.cpp:41-52. *)
Definition m_cred_copy (o : cred_obj) : Mem unit cred_obj :=
  u <+ lift (h_text PArg (co_user o)) ;;
  pu <+ m_dup tt u ;;
  p <+ lift (h_text PArg (co_pass o)) ;;
  pp <+ m_dup tt p ;;
  mret (mkCO pu pp (co_method o)).

(** credential.cpp:61-79; the method is assigned last (76). *)
Definition m_cred_assign (this other : cred_obj) : Mem cred_obj cred_obj :=
  lift (h_del Many (co_user this)) ;;+
  lift (h_del Many (co_pass this)) ;;+
  u <+ lift (h_text PArg (co_user other)) ;;
  pu <+ m_dup this u ;;
  p <+ lift (h_text PArg (co_pass other)) ;;
  pp <+ m_dup (mkCO pu (co_pass this) (co_method this)) p ;;
  mret (mkCO pu pp (co_method other)).

(** credential.cpp:124-135: the old text is freed (130) before the new one is
    allocated (132). *)
Definition m_cred_setUsername (this : cred_obj) (user : cptr) : Mem cred_obj cred_obj :=
  u <+ lift (c_read user) ;;
  bad <+ lift (hlift (null_or_blank u)) ;;
  if bad then lift (hlift Throw)
  else
    lift (h_del Many (co_user this)) ;;+
    p <+ m_c_dup this user ;;
    mret (mkCO p (co_pass this) (co_method this)).

(** credential.cpp:137-147. *)
Definition m_cred_setPassword (this : cred_obj) (pass : cptr) : Mem cred_obj cred_obj :=
  p <+ lift (c_read pass) ;;
  match p with
  | None => lift (hlift Throw)
  | Some [] => lift (hlift Throw)
  | Some _ =>
      lift (h_del Many (co_pass this)) ;;+
      q <+ m_c_dup this pass ;;
      mret (mkCO (co_user this) q (co_method this))
  end.

(** ** Message *)

(** [new MessageAddress(x)]: the memory of the object, then the constructor;
    if the constructor throws, that memory is given back.  (As in ModelHeap the
    block appears when the constructor is done.) *)
Definition m_new_addr (c : Mem unit addr_obj) : Mem unit ptr :=
  tick tt ;;+ o <+ c ;; lift (h_new One (AddrObj o)).
Definition m_new_att (c : Mem unit att_obj) : Mem unit ptr :=
  tick tt ;;+ o <+ c ;; lift (h_new One (AttObj o)).
Definition m_new_cred (c : Mem unit cred_obj) : Mem unit ptr :=
  tick tt ;;+ o <+ c ;; lift (h_new One (CredObj o)).

(** The loop that fills an array; [made] are the elements so far. *)
Fixpoint m_loop {A} (n i : nat) (made : list A) (f : nat -> Mem unit A) : Mem (list A) (list A) :=
  match n with
  | O => mret []
  | S n' =>
      x <+ during (fun _ => made) (f i) ;;
      l <+ m_loop n' (S i) (made ++ [x]) f ;;
      mret (x :: l)
  end.

(** [new T*[n]] and the loop.  It fails before the array exists ([None]), or
    when some elements exist; then the rest of the array is not initialised,
    which is modelled by an array that ends there. *)
Definition m_new_cells (n : nat) (f : nat -> Mem unit ptr) : Mem (option ptr) ptr :=
  tick None ;;+
  a <+ lift (h_new Many (Cells (repeat None n))) ;;
  l <+ unwinding (fun made => h_put PArray a (Cells made)) (fun _ => Some a) (m_loop n 0 [] f) ;;
  lift (h_put PArray a (Cells l)) ;;+
  mret a.

(** message.cpp:62-88. *)
Definition m_arr_build {A} (mk : A -> Mem unit ptr) (a : arr A) : Mem unit ptr :=
  match a with
  | ANull _ => mret None
  | AArr l =>
      during (fun _ => tt) (m_new_cells (List.length l) (fun i =>
        match nth_error l i with
        | Some x => mk x
        | None => lift (hundef UB_UseAfterFree)
        end))
  end.

(** message.cpp:44-60. *)
Definition m_text_build (c : cptr) : Mem unit ptr :=
  o <+ lift (c_read c) ;;
  match o with
  | None => tick tt ;;+ lift (h_new One (Text []))
  | Some s => m_dup tt s
  end.

(** message.cpp:22-89: when the constructor throws, the member mFrom is
    destroyed. *)
Definition m_msg_new (from : addr_obj) (to cc bcc : arr addr_obj)
  (subject body : cptr) (atts : arr att_obj) : Mem unit msg_obj :=
  f <+ m_addr_copy from ;;
  unwinding (fun _ => addr_destroy f) (fun _ => tt) (
  s <+ m_text_build subject ;;
  b <+ m_text_build body ;;
  t <+ m_arr_build (fun o => m_new_addr (m_addr_copy o)) to ;;
  c <+ m_arr_build (fun o => m_new_addr (m_addr_copy o)) cc ;;
  d <+ m_arr_build (fun o => m_new_addr (m_addr_copy o)) bcc ;;
  a <+ m_arr_build (fun o => m_new_att (m_att_copy o)) atts ;;
  mret (mkMO f t (arr_count to) c (arr_count cc) d (arr_count bcc) s b a (arr_count atts))).

(** message.cpp:152-157 and the like. *)
Definition m_clone_addrs (arr : ptr) (n : nat) : Mem (option ptr) ptr :=
  match n with
  | O => mret None
  | S _ => m_new_cells n (fun i => p <+ lift (cell arr i) ;; o <+ lift (get_addr p) ;; m_new_addr (m_addr_copy o))
  end.
Definition m_clone_atts (arr : ptr) (n : nat) : Mem (option ptr) ptr :=
  match n with
  | O => mret None
  | S _ => m_new_cells n (fun i => p <+ lift (cell arr i) ;; o <+ lift (get_att p) ;; m_new_att (m_att_copy o))
  end.

(** message.cpp:131-182. *)
Definition m_msg_copy (other : msg_obj) : Mem unit msg_obj :=
  f <+ m_addr_copy (mo_from other) ;;
  unwinding (fun _ => addr_destroy f) (fun _ => tt) (
  ss <+ lift (h_text PArg (mo_subject other)) ;;
  s <+ m_dup tt ss ;;
  bs <+ lift (h_text PArg (mo_body other)) ;;
  b <+ m_dup tt bs ;;
  t <+ during (fun _ => tt) (m_clone_addrs (mo_to other) (mo_nto other)) ;;
  c <+ during (fun _ => tt) (m_clone_addrs (mo_cc other) (mo_ncc other)) ;;
  d <+ during (fun _ => tt) (m_clone_addrs (mo_bcc other) (mo_nbcc other)) ;;
  a <+ during (fun _ => tt) (m_clone_atts (mo_atts other) (mo_natts other)) ;;
  mret (mkMO f t (mo_nto other) c (mo_ncc other) d (mo_nbcc other) s b a (mo_natts other))).

(** message.cpp:200-212 and the like; the failing state is that of the array
    member: still the old pointer ([None]) or the new array. *)
Definition m_replace_addrs (this : ptr) (n : nat) (other : ptr) (k : nat) : Mem (option ptr) ptr :=
  match n with O => mret tt | S _ => lift (free_addrs this n) end ;;+
  match k with O => mret this | S _ => m_clone_addrs other k end.
Definition m_replace_atts (this : ptr) (n : nat) (other : ptr) (k : nat) : Mem (option ptr) ptr :=
  match n with O => mret tt | S _ => lift (free_atts this n) end ;;+
  match k with O => mret this | S _ => m_clone_atts other k end.

Definition member (old : ptr) (new : option ptr) : ptr := match new with None => old | Some a => a end.

(** message.cpp:185-257; each count is assigned after its array (213, 226, 239,
    252). *)
Definition m_msg_assign (this other : msg_obj) : Mem msg_obj msg_obj :=
  let f := mo_from this in
  lift (h_del Many (mo_subject this)) ;;+
  ss <+ lift (h_text PArg (mo_subject other)) ;;
  s <+ m_dup this ss ;;
  lift (h_del Many (mo_body this)) ;;+
  bs <+ lift (h_text PArg (mo_body other)) ;;
  b <+ m_dup (mkMO f (mo_to this) (mo_nto this) (mo_cc this) (mo_ncc this) (mo_bcc this) (mo_nbcc this)
                s (mo_body this) (mo_atts this) (mo_natts this)) bs ;;
  t <+ during (fun x => mkMO f (member (mo_to this) x) (mo_nto this) (mo_cc this) (mo_ncc this) (mo_bcc this) (mo_nbcc this)
                s b (mo_atts this) (mo_natts this))
         (m_replace_addrs (mo_to this) (mo_nto this) (mo_to other) (mo_nto other)) ;;
  c <+ during (fun x => mkMO f t (mo_nto other) (member (mo_cc this) x) (mo_ncc this) (mo_bcc this) (mo_nbcc this)
                s b (mo_atts this) (mo_natts this))
         (m_replace_addrs (mo_cc this) (mo_ncc this) (mo_cc other) (mo_ncc other)) ;;
  d <+ during (fun x => mkMO f t (mo_nto other) c (mo_ncc other) (member (mo_bcc this) x) (mo_nbcc this)
                s b (mo_atts this) (mo_natts this))
         (m_replace_addrs (mo_bcc this) (mo_nbcc this) (mo_bcc other) (mo_nbcc other)) ;;
  a <+ during (fun x => mkMO f t (mo_nto other) c (mo_ncc other) d (mo_nbcc other)
                s b (member (mo_atts this) x) (mo_natts this))
         (m_replace_atts (mo_atts this) (mo_natts this) (mo_atts other) (mo_natts other)) ;;
  mret (mkMO f t (mo_nto other) c (mo_ncc other) d (mo_nbcc other) s b a (mo_natts other)).

(** message.cpp:287-346, declared noexcept; the copy assignment of the sender
    (321) allocates. *)
Definition m_msg_move_assign {T} (this other : msg_obj) : Mem T (msg_obj * msg_obj) :=
  lift (h_del Many (mo_subject this)) ;;+
  lift (h_del Many (mo_body this)) ;;+
  lift (drop_addrs (mo_to this) (mo_nto this)) ;;+
  lift (drop_addrs (mo_cc this) (mo_ncc this)) ;;+
  lift (drop_addrs (mo_bcc this) (mo_nbcc this)) ;;+
  lift (drop_atts (mo_atts this) (mo_natts this)) ;;+
  f <+ no_throw (m_addr_assign (mo_from this) (mo_from other)) ;;
  mret (mkMO f (mo_to other) (mo_nto other) (mo_cc other) (mo_ncc other)
             (mo_bcc other) (mo_nbcc other) (mo_subject other) (mo_body other)
             (mo_atts other) (mo_natts other),
        msg_null (mo_from other)).

(** ** The memory of a client *)

(** smtpclientbase.cpp:42-64. *)
Definition m_base_new (server : cptr) : Mem unit base_obj :=
  s <+ lift (c_read server) ;;
  bad <+ lift (hlift (null_or_blank s)) ;;
  if bad then lift (hlift Throw)
  else
    p <+ m_c_dup tt server ;;
    mret (mkBO p None None None None).

Definition m_dup_or_null {T} (t : T) (p : ptr) : Mem T ptr :=
  match p with
  | None => mret None
  | Some _ => s <+ lift (h_text PArg p) ;; m_dup t s
  end.
Definition m_auth_or_null {T} (t : T) (p : ptr) : Mem T ptr :=
  match p with
  | None => mret None
  | Some _ => lift (h_get PAuth p) ;;+ tick t ;;+ lift (h_new One AuthObj)
  end.
Definition m_cred_or_null (p : ptr) : Mem unit ptr :=
  match p with
  | None => mret None
  | Some _ => o <+ lift (get_cred p) ;; m_new_cred (m_cred_copy o)
  end.

(** smtpclientbase.cpp:80-111. *)
Definition m_base_copy (o : base_obj) : Mem unit base_obj :=
  s <+ lift (h_text PServer (bo_server o)) ;;
  ps <+ m_dup tt s ;;
  pl <+ m_dup_or_null tt (bo_log o) ;;
  pr <+ m_dup_or_null tt (bo_resp o) ;;
  pa <+ m_auth_or_null tt (bo_auth o) ;;
  pc <+ m_cred_or_null (bo_cred o) ;;
  mret (mkBO ps pl pr pa pc).

(** smtpclientbase.cpp:114-153. *)
Definition m_base_assign (this other : base_obj) : Mem base_obj base_obj :=
  lift (h_del Many (bo_server this)) ;;+
  s <+ lift (h_text PServer (bo_server other)) ;;
  ps <+ m_dup this s ;;
  pl <+ m_dup_or_null (mkBO ps (bo_log this) (bo_resp this) (bo_auth this) (bo_cred this)) (bo_log other) ;;
  pr <+ m_dup_or_null (mkBO ps pl (bo_resp this) (bo_auth this) (bo_cred this)) (bo_resp other) ;;
  lift (h_del One (bo_auth this)) ;;+
  pa <+ m_auth_or_null (mkBO ps pl pr (bo_auth this) (bo_cred this)) (bo_auth other) ;;
  pc <+ during (fun _ => mkBO ps pl pr pa (bo_cred this)) (m_cred_or_null (bo_cred other)) ;;
  mret (mkBO ps pl pr pa pc).

(** smtpclientbase.cpp:258-268. *)
Definition m_base_setServerName (this : base_obj) (server : cptr) : Mem base_obj base_obj :=
  s <+ lift (c_read server) ;;
  bad <+ lift (hlift (null_or_blank s)) ;;
  if bad then lift (hlift Throw)
  else
    lift (h_del Many (bo_server this)) ;;+
    p <+ m_c_dup this server ;;
    mret (mkBO p (bo_log this) (bo_resp this) (bo_auth this) (bo_cred this)).

(** smtpclientbase.cpp:278-281. *)
Definition m_base_setCredentials (this : base_obj) (src : H cred_obj) : Mem base_obj base_obj :=
  lift (delete_cred (bo_cred this)) ;;+
  p <+ during (fun _ => this) (m_new_cred (o <+ lift src ;; m_cred_copy o)) ;;
  mret (mkBO (bo_server this) (bo_log this) (bo_resp this) (bo_auth this) p).

(** smtpclientbase.cpp:1081-1118 and 1120-1141. *)
Definition m_parse_auth (line : str) : Mem unit ptr :=
  match ParseAuthenticationOptions line with
  | Some _ => tick tt ;;+ lift (h_new One AuthObj)
  | None => mret None
  end.
Fixpoint m_auth_loop (fuel : nat) (text : str) (ret : ptr) : Mem unit ptr :=
  match fuel with
  | O => mret ret
  | S f =>
      match find_sub CRLF text with
      | None => mret ret
      | Some n =>
          p <+ m_parse_auth (firstn n text) ;;
          match p with
          | Some _ => mret p
          | None =>
              let rest := skipn (n + 2) text in
              r <+ match rest, ret with
                   | _ :: _, None => m_parse_auth rest
                   | _, _ => mret ret
                   end ;;
              m_auth_loop f rest r
          end
      end
  end.
Definition m_auth_extract (ehlo : str) : Mem unit ptr := m_auth_loop (S (length (cstr ehlo))) (cstr ehlo) None.

(** smtpclientbase.cpp:376-379, 1026-1042 (the new buffer is allocated before
    the old one is freed), 752-757, 310-313. *)
Definition m_base_talk (this : base_obj) (t : talk) : Mem base_obj base_obj :=
  match t with
  | TStart =>
      lift (h_del Many (bo_log this)) ;;+
      p <+ m_dup this [] ;;
      mret (mkBO (bo_server this) p (bo_resp this) (bo_auth this) (bo_cred this))
  | TLog grow s =>
      lift (h_text PLog (bo_log this)) ;;+
      if grow then
        p <+ m_dup this s ;;
        lift (h_del Many (bo_log this)) ;;+
        mret (mkBO (bo_server this) p (bo_resp this) (bo_auth this) (bo_cred this))
      else
        lift (h_put PLog (bo_log this) (Text s)) ;;+
        mret this
  | TAnswer s =>
      lift (h_del Many (bo_resp this)) ;;+
      p <+ m_dup this s ;;
      mret (mkBO (bo_server this) (bo_log this) p (bo_auth this) (bo_cred this))
  | TAuth ehlo =>
      p <+ during (fun _ => this) (m_auth_extract ehlo) ;;
      lift (h_del One (bo_auth this)) ;;+
      mret (mkBO (bo_server this) (bo_log this) (bo_resp this) p (bo_cred this))
  end.

(** ** The clients of the string API *)

(** cpp/smtpclient.cpp:6-8 and the defaulted special members
    (cpp/smtpclient.hpp:43-46): base class first, then the pointer. *)
Definition m_cpp_new (server : cptr) : Mem unit cpp_obj :=
  b <+ m_base_new server ;; mret (mkPO b None).
Definition m_cpp_copy (o : cpp_obj) : Mem unit cpp_obj :=
  b <+ m_base_copy (po_base o) ;; mret (mkPO b (po_cred o)).
Definition m_cpp_assign (this other : cpp_obj) : Mem cpp_obj cpp_obj :=
  b <+ during (fun b => mkPO b (po_cred this)) (m_base_assign (po_base this) (po_base other)) ;;
  mret (mkPO b (po_cred other)).

(** cpp/smtpclient.cpp:50-55 and cpp/forcedsecuresmtpclient.cpp:54-60: the
    temporary is destroyed when the setter of the base class throws. *)
Definition m_cpp_setCredentials (this : cpp_obj) (src : H cred_obj) : Mem cpp_obj cpp_obj :=
  a <+ lift src ;;
  u <+ lift (h_text PArg (co_user a)) ;;
  w <+ lift (h_text PArg (co_pass a)) ;;
  tmp <+ during (fun _ => this) (m_cred_new (CCaller u) (CCaller w)) ;;
  b <+ unwinding (fun _ => cred_destroy tmp) (fun b => mkPO b (po_cred this))
         (m_base_setCredentials (po_base this) (hret tmp)) ;;
  lift (cred_destroy tmp) ;;+
  lift (delete_cred (po_cred this)) ;;+
  p <+ during (fun _ => mkPO b (po_cred this)) (m_new_cred (o <+ lift src ;; m_cred_copy o)) ;;
  mret (mkPO b p).

(** ** Programs *)

(** A constructor that throws leaves no object; any other operation leaves the
    object with the members it had at that moment. *)
Definition m_push {A} (p : pool) (c : A -> obj) (m : Mem unit A) : Mem pool pool :=
  a <+ during (fun _ => p ++ [OGone]) m ;; mret (p ++ [c a]).
Definition m_put {A} (p : pool) (i : nat) (c : A -> obj) (m : Mem A A) : Mem pool pool :=
  a <+ during (fun x => set i (c x) p) m ;; mret (set i (c a) p).

Definition m_step (p : pool) (o : hop) : Mem pool pool :=
  match o with
  | VAddr e n => m_push p OAddr (m_addr_new (eval p e) (eval p n))
  | VAtt f n c => m_push p OAtt (m_att_new (eval p f) (eval p n) (eval p c))
  | VCred u w => m_push p OCred (m_cred_new (eval p u) (eval p w))
  | VCred3 u w m => m_push p OCred (m_cred_new3 (eval p u) (eval p w) m)
  | VMsg f t c d s b a =>
      match get f p, addr_array p t, addr_array p c, addr_array p d, att_array p a with
      | OAddr f', Some t', Some c', Some d', Some a' =>
          m_push p OMsg (m_msg_new f' t' c' d' (eval p s) (eval p b) a')
      | _, _, _, _, _ => mret p
      end
  | VBase s => m_push p OBase (m_base_new (eval p s))
  | VCpp s => m_push p OCpp (m_cpp_new (eval p s))
  | VCopy i =>
      match get i p with
      | OAddr x => m_push p OAddr (m_addr_copy x)
      | OAtt x => m_push p OAtt (m_att_copy x)
      | OCred x => m_push p OCred (m_cred_copy x)
      | OMsg x => m_push p OMsg (m_msg_copy x)
      | OBase x => m_push p OBase (m_base_copy x)
      | OCpp x => m_push p OCpp (m_cpp_copy x)
      | OGone => mret p
      end
  | VAssign i j =>
      if Nat.eqb i j then mret p else
      match get i p, get j p with
      | OAddr x, OAddr y => m_put p i OAddr (m_addr_assign x y)
      | OAtt x, OAtt y => m_put p i OAtt (m_att_assign x y)
      | OCred x, OCred y => m_put p i OCred (m_cred_assign x y)
      | OMsg x, OMsg y => m_put p i OMsg (m_msg_assign x y)
      | OBase x, OBase y => m_put p i OBase (m_base_assign x y)
      | OCpp x, OCpp y => m_put p i OCpp (m_cpp_assign x y)
      | _, _ => mret p
      end
  | VMoveAssign i j =>
      match get i p, get j p with
      | OMsg x, OMsg y =>
          if Nat.eqb i j then mret p else
          oo <+ m_msg_move_assign x y ;; let (a, b) := (oo : msg_obj * msg_obj) in mret (set j (OMsg b) (set i (OMsg a) p))
      | _, _ => lift (hstep p o)
      end
  | VSetContentId i c =>
      match get i p with
      | OAtt x => m_put p i OAtt (m_att_setContentId x (eval p c))
      | _ => mret p
      end
  | VSetUsername i u =>
      match get i p with
      | OCred x => m_put p i OCred (m_cred_setUsername x (eval p u))
      | _ => mret p
      end
  | VSetPassword i w =>
      match get i p with
      | OCred x => m_put p i OCred (m_cred_setPassword x (eval p w))
      | _ => mret p
      end
  | VSetServer i s =>
      match get i p with
      | OBase x => m_put p i OBase (m_base_setServerName x (eval p s))
      | OCpp x =>
          m_put p i OCpp (b <+ during (fun b => mkPO b (po_cred x)) (m_base_setServerName (po_base x) (eval p s)) ;;
                          mret (mkPO b (po_cred x)))
      | _ => mret p
      end
  | VSetCredentials i c =>
      match get i p, cred_source p c with
      | OBase x, Some src => m_put p i OBase (m_base_setCredentials x src)
      | OCpp x, Some src => m_put p i OCpp (m_cpp_setCredentials x src)
      | _, _ => mret p
      end
  | VTalk i t =>
      match get i p with
      | OBase x => m_put p i OBase (m_base_talk x t)
      | OCpp x =>
          m_put p i OCpp (b <+ during (fun b => mkPO b (po_cred x)) (m_base_talk (po_base x) t) ;;
                          mret (mkPO b (po_cred x)))
      | _ => mret p
      end
  (* these allocate nothing; the moves are noexcept *)
  | VMove _ | VSetMethod _ _ | VRead _ | VDestroy _ => lift (hstep p o)
  end.

(** A program: each operation with the memory there is for it.  The program
    catches std::bad_alloc as well and goes on. *)
Fixpoint m_run (l : list (hop * quota)) (p : pool) (h : heap) : outcome pool * heap :=
  match l with
  | [] => (Done p, h)
  | (o, q) :: r =>
      match m_step p o q h with
      | (Ended (Done p') _, h') => m_run r p' h'
      | (Ended Throw _, h') => m_run r (if is_ctor o then p ++ [OGone] else p) h'
      | (Ended (Undef u) _, h') => (Undef u, h')
      | (Ended Blocked _, h') => (Blocked, h')
      | (Ended Killed _, h') => (Killed, h')
      | (Ended Diverge _, h') => (Diverge, h')
      | (NoMemory p', h') => m_run r p' h'
      | (Terminated, h') => (Killed, h')
      end
  end.

Definition m_exec (l : list (hop * quota)) : outcome pool * heap := m_run l [] empty_heap.
