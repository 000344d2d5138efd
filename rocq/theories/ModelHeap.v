(** Model of the memory management of the library: who allocates and who
    frees.  Files: src/messageaddress.cpp, src/attachment.cpp,
    src/credential.cpp, src/message.cpp, the memory of src/smtpclientbase.cpp,
    and src/cpp/smtpclient.cpp, src/cpp/forcedsecuresmtpclient.cpp,
    src/cpp/opportunisticsecuresmtpclient.cpp (setCredentials, getCredentials
    and the compiler generated special members). *)

From Coq Require Import Ascii String List NArith ZArith Bool Arith.
From Verif Require Import Base ModelUtil ModelBase64 ModelAddress ModelAttachment ModelMessage ModelReply.
Import ListNotations.
Open Scope nat_scope.

(** ** The heap *)

(** A raw pointer member: null or the address of a block. *)
Definition ptr := option nat.

(** Members of the classes that own memory.
    messageaddress.h: mEmailAddress, mDisplayName. *)
Record addr_obj := mkAO { ao_email : ptr; ao_name : ptr }.
(** attachment.h: mName, mFilename, mContentId. *)
Record att_obj := mkTO { to_name : ptr; to_file : ptr; to_cid : ptr }.
(** credential.h: mUsername, mPassword, mRecommendedAuthMethod. *)
Record cred_obj := mkCO { co_user : ptr; co_pass : ptr; co_method : authmethod }.

(** How a block was obtained: [new T] or [new T[n]]. *)
Inductive alloc := One | Many.

(** What a block holds.  A text is the bytes before the terminating NUL. *)
Inductive content :=
| Text (s : str)
| Cells (l : list ptr)            (* MessageAddress*[] or Attachment*[] *)
| AddrObj (o : addr_obj)
| AttObj (o : att_obj)
| CredObj (o : cred_obj)
| AuthObj.                        (* ServerAuthOptions: no pointer inside *)

Record block := mkB { b_alloc : alloc; b_content : content }.

(** The live blocks.  Simplification: the address of a freed block is never
    handed out again, so using it is always recognised. *)
Record heap := mkHeap { h_next : nat; h_live : list (nat * block) }.

Definition empty_heap : heap := mkHeap 0 [].

Fixpoint lookup (a : nat) (l : list (nat * block)) : option block :=
  match l with
  | [] => None
  | (x, b) :: r => if Nat.eqb a x then Some b else lookup a r
  end.

Fixpoint remove (a : nat) (l : list (nat * block)) : list (nat * block) :=
  match l with
  | [] => []
  | (x, b) :: r => if Nat.eqb a x then r else (x, b) :: remove a r
  end.

(** Code that works on the heap. *)
Definition H (A : Type) := heap -> outcome A * heap.

Definition hret {A} (a : A) : H A := fun h => (Done a, h).

Definition hbind {A C} (m : H A) (k : A -> H C) : H C := fun h =>
  match m h with
  | (Done a, h') => k a h'
  | (Throw, h') => (Throw, h')
  | (Undef u, h') => (Undef u, h')
  | (Blocked, h') => (Blocked, h')
  | (Killed, h') => (Killed, h')
  | (Diverge, h') => (Diverge, h')
  end.

Notation "x <~ m ;; k" := (hbind m (fun x => k)) (at level 61, m at next level, right associativity).
Notation "m ;;~ k" := (hbind m (fun _ => k)) (at level 61, right associativity).

(** A computation without effect on the heap. *)
Definition hlift {A} (o : outcome A) : H A := fun h => (o, h).

Definition hundef {A} (u : ub) : H A := fun h => (Undef u, h).

(** [new] / [new[]] and the initialisation of the block.  Simplification:
    allocation never fails (ModelScarce.v lets it fail). *)
Definition h_new (k : alloc) (c : content) : H ptr := fun h =>
  (Done (Some (h_next h)), mkHeap (S (h_next h)) ((h_next h, mkB k c) :: h_live h)).

(** Reading through a pointer.  [q] names the pointer for the case null. *)
Definition h_get (q : pointer) (p : ptr) : H content := fun h =>
  match p with
  | None => (Undef (UB_NullDeref q), h)
  | Some a => match lookup a (h_live h) with
              | None => (Undef UB_UseAfterFree, h)
              | Some b => (Done (b_content b), h)
              end
  end.

(** Overwriting a block. *)
Definition h_put (q : pointer) (p : ptr) (c : content) : H unit := fun h =>
  match p with
  | None => (Undef (UB_NullDeref q), h)
  | Some a => match lookup a (h_live h) with
              | None => (Undef UB_UseAfterFree, h)
              | Some b => (Done tt, mkHeap (h_next h) ((a, mkB (b_alloc b) c) :: remove a (h_live h)))
              end
  end.

(** [delete] ([k] = One) or [delete[]] ([k] = Many) of the memory; a null
    pointer is allowed. *)
Definition h_del (k : alloc) (p : ptr) : H unit := fun h =>
  match p with
  | None => (Done tt, h)
  | Some a =>
      match lookup a (h_live h) with
      | None => (Undef UB_DoubleFree, h)
      | Some b =>
          match b_alloc b, k with
          | One, One | Many, Many => (Done tt, mkHeap (h_next h) (remove a (h_live h)))
          | _, _ => (Undef UB_MismatchedDelete, h)
          end
      end
  end.

(** [strlen] and [strncpy] from a pointer: its text. *)
Definition h_text (q : pointer) (p : ptr) : H str :=
  c <~ h_get q p ;;
  match c with
  | Text s => hret s
  | _ => hundef UB_UseAfterFree
  end.

(** A C string argument: null, memory of the caller, or a pointer that a
    getter of some object returned. *)
Inductive cptr :=
| CNull
| CCaller (s : str)
| CInside (p : ptr).

(** The text of a C string argument; [None] for a null pointer. *)
Definition c_read (c : cptr) : H (option str) :=
  match c with
  | CNull => hret None
  | CCaller s => hret (Some (cstr s))
  | CInside None => hret None
  | CInside (Some a) => s <~ h_text PArg (Some a) ;; hret (Some s)
  end.

(** [new char[strlen(s) + 1]] filled with the text. *)
Definition h_dup (s : str) : H ptr := h_new Many (Text s).

(** The text [strlen(p) + 1] and [strncpy(.., p, ..)] read when [p] is an
    argument that was checked to be non-null. *)
Definition c_dup (c : cptr) : H ptr :=
  o <~ c_read c ;;
  match o with
  | None => hundef (UB_NullDeref PArg)
  | Some s => h_dup s
  end.

(** ** MessageAddress *)

(** messageaddress.cpp:10-31, constructor: the checks come before the
    allocations. *)
Definition addr_new (email name : cptr) : H addr_obj :=
  e <~ c_read email ;;
  n <~ c_read name ;;
  v <~ hlift (address_new e n) ;;
  pe <~ h_dup (a_email v) ;;
  pn <~ h_dup (a_name v) ;;
  hret (mkAO pe pn).

(** messageaddress.cpp:33-36, destructor. *)
Definition addr_destroy (o : addr_obj) : H unit :=
  h_del Many (ao_email o) ;;~ h_del Many (ao_name o).

(** messageaddress.cpp:39-48, copy constructor. *)
Definition addr_copy (o : addr_obj) : H addr_obj :=
  e <~ h_text PArg (ao_email o) ;;
  pe <~ h_dup e ;;
  n <~ h_text PArg (ao_name o) ;;
  pn <~ h_dup n ;;
  hret (mkAO pe pn).

(** messageaddress.cpp:51-67, assignment to another object. *)
Definition addr_assign (this other : addr_obj) : H addr_obj :=
  h_del Many (ao_email this) ;;~
  h_del Many (ao_name this) ;;~
  addr_copy other.

(** messageaddress.cpp:70-77, move constructor: the new object and the source
    afterwards. *)
Definition addr_null : addr_obj := mkAO None None.
Definition addr_move (other : addr_obj) : H (addr_obj * addr_obj) :=
  hret (other, addr_null).

(** messageaddress.cpp:80-93, move assignment from another object. *)
Definition addr_move_assign (this other : addr_obj) : H (addr_obj * addr_obj) :=
  h_del Many (ao_email this) ;;~
  h_del Many (ao_name this) ;;~
  hret (other, addr_null).

(** ** Attachment *)

(** attachment.cpp:11-32, constructor. *)
Definition att_new (file name cid : cptr) : H att_obj :=
  f <~ c_read file ;;
  n <~ c_read name ;;
  c <~ c_read cid ;;
  v <~ hlift (attachment_new f n c) ;;
  pf <~ h_dup (at_file v) ;;
  pn <~ h_dup (at_name v) ;;
  pc <~ h_dup (at_cid v) ;;
  hret (mkTO pn pf pc).

(** attachment.cpp:34-41, destructor. *)
Definition att_destroy (o : att_obj) : H unit :=
  h_del Many (to_name o) ;;~ h_del Many (to_file o) ;;~ h_del Many (to_cid o).

(** attachment.cpp:44-57, copy constructor. *)
Definition att_copy (o : att_obj) : H att_obj :=
  n <~ h_text PArg (to_name o) ;;
  pn <~ h_dup n ;;
  f <~ h_text PArg (to_file o) ;;
  pf <~ h_dup f ;;
  c <~ h_text PArg (to_cid o) ;;
  pc <~ h_dup c ;;
  hret (mkTO pn pf pc).

(** attachment.cpp:60-82, assignment to another object. *)
Definition att_assign (this other : att_obj) : H att_obj :=
  h_del Many (to_name this) ;;~
  h_del Many (to_file this) ;;~
  h_del Many (to_cid this) ;;~
  att_copy other.

(** attachment.cpp:85-92, move constructor. *)
Definition att_null : att_obj := mkTO None None None.
Definition att_move (other : att_obj) : H (att_obj * att_obj) :=
  hret (other, att_null).

(** attachment.cpp:95-111, move assignment. *)
Definition att_move_assign (this other : att_obj) : H (att_obj * att_obj) :=
  h_del Many (to_name this) ;;~
  h_del Many (to_file this) ;;~
  h_del Many (to_cid this) ;;~
  hret (other, att_null).

(** attachment.cpp:113-118 [setContentId]: the previous text is not freed. *)
Definition att_setContentId (this : att_obj) (cid : cptr) : H att_obj :=
  p <~ c_dup cid ;;
  hret (mkTO (to_name this) (to_file this) p).

(** ** Credential *)

(** credential.cpp:9-31, constructor. *)
Definition cred_new (user pass : cptr) : H cred_obj :=
  u <~ c_read user ;;
  p <~ c_read pass ;;
  v <~ hlift (credential_new u p) ;;
  pu <~ h_dup (cr_user v) ;;
  pp <~ h_dup (cr_pass v) ;;
  hret (mkCO pu pp (cr_method v)).

(** credential.cpp:54-58, constructor with a method. *)
Definition cred_new3 (user pass : cptr) (m : authmethod) : H cred_obj :=
  o <~ cred_new user pass ;;
  hret (mkCO (co_user o) (co_pass o) m).

(** credential.cpp:33-38, destructor. *)
Definition cred_destroy (o : cred_obj) : H unit :=
  h_del Many (co_user o) ;;~ h_del Many (co_pass o).

(** credential.cpp:41-52, copy constructor. *)
Definition cred_copy (o : cred_obj) : H cred_obj :=
  u <~ h_text PArg (co_user o) ;;
  pu <~ h_dup u ;;
  p <~ h_text PArg (co_pass o) ;;
  pp <~ h_dup p ;;
  hret (mkCO pu pp (co_method o)).

(** credential.cpp:61-79, assignment to another object. *)
Definition cred_assign (this other : cred_obj) : H cred_obj :=
  h_del Many (co_user this) ;;~
  h_del Many (co_pass this) ;;~
  cred_copy other.

(** credential.cpp:82-90, move constructor; the method of the source stays. *)
Definition cred_null (o : cred_obj) : cred_obj := mkCO None None (co_method o).
Definition cred_move (other : cred_obj) : H (cred_obj * cred_obj) :=
  hret (other, cred_null other).

(** credential.cpp:93-108, move assignment. *)
Definition cred_move_assign (this other : cred_obj) : H (cred_obj * cred_obj) :=
  h_del Many (co_user this) ;;~
  h_del Many (co_pass this) ;;~
  hret (other, cred_null other).

(** credential.cpp:124-135 [setUsername]: checks, then deletes, then reads the
    argument. *)
Definition cred_setUsername (this : cred_obj) (user : cptr) : H cred_obj :=
  u <~ c_read user ;;
  bad <~ hlift (null_or_blank u) ;;
  if bad then hlift Throw
  else
    h_del Many (co_user this) ;;~
    p <~ c_dup user ;;
    hret (mkCO p (co_pass this) (co_method this)).

(** credential.cpp:137-147 [setPassword]. *)
Definition cred_setPassword (this : cred_obj) (pass : cptr) : H cred_obj :=
  p <~ c_read pass ;;
  match p with
  | None => hlift Throw
  | Some [] => hlift Throw
  | Some _ =>
      h_del Many (co_pass this) ;;~
      q <~ c_dup pass ;;
      hret (mkCO (co_user this) q (co_method this))
  end.

(** credential.cpp:149-152 [setRecommendedAuthOption]. *)
Definition cred_setMethod (this : cred_obj) (m : authmethod) : H cred_obj :=
  hret (mkCO (co_user this) (co_pass this) m).

(** ** Message *)

(** message.h: the members. *)
Record msg_obj := mkMO {
  mo_from : addr_obj;
  mo_to : ptr;   mo_nto : nat;
  mo_cc : ptr;   mo_ncc : nat;
  mo_bcc : ptr;  mo_nbcc : nat;
  mo_subject : ptr; mo_body : ptr;
  mo_atts : ptr; mo_natts : nat }.

(** [new MessageAddress(x)] where the constructor is [c].  Simplification: the
    memory of the object is taken after the constructor ran. *)
Definition new_addr (c : H addr_obj) : H ptr := o <~ c ;; h_new One (AddrObj o).
Definition new_att (c : H att_obj) : H ptr := o <~ c ;; h_new One (AttObj o).
Definition new_cred (c : H cred_obj) : H ptr := o <~ c ;; h_new One (CredObj o).

(** Reading the object a pointer designates. *)
Definition get_addr (p : ptr) : H addr_obj :=
  c <~ h_get PArray p ;; match c with AddrObj o => hret o | _ => hundef UB_UseAfterFree end.
Definition get_att (p : ptr) : H att_obj :=
  c <~ h_get PArray p ;; match c with AttObj o => hret o | _ => hundef UB_UseAfterFree end.
Definition get_cred (p : ptr) : H cred_obj :=
  c <~ h_get PArg p ;; match c with CredObj o => hret o | _ => hundef UB_UseAfterFree end.
Definition get_cells (p : ptr) : H (list ptr) :=
  c <~ h_get PArray p ;; match c with Cells l => hret l | _ => hundef UB_UseAfterFree end.

(** [delete p] for an object: destructor, then the memory.  The destructor of
    an object that is not allocated counts as freeing it twice. *)
Definition h_live_or_double (p : ptr) : H unit := fun h =>
  match p with
  | None => (Done tt, h)
  | Some a => match lookup a (h_live h) with
              | None => (Undef UB_DoubleFree, h)
              | Some _ => (Done tt, h)
              end
  end.
Definition delete_addr (p : ptr) : H unit :=
  match p with
  | None => hret tt
  | Some _ => h_live_or_double p ;;~ o <~ get_addr p ;; addr_destroy o ;;~ h_del One p
  end.
Definition delete_att (p : ptr) : H unit :=
  match p with
  | None => hret tt
  | Some _ => h_live_or_double p ;;~ o <~ get_att p ;; att_destroy o ;;~ h_del One p
  end.
Definition delete_cred (p : ptr) : H unit :=
  match p with
  | None => hret tt
  | Some _ => h_live_or_double p ;;~ o <~ get_cred p ;; cred_destroy o ;;~ h_del One p
  end.

(** The element [i] of an array of pointers. *)
Definition cell (arr : ptr) (i : nat) : H ptr :=
  l <~ get_cells arr ;;
  match nth_error l i with
  | Some p => hret p
  | None => hundef UB_UseAfterFree
  end.

(** The loop [for (i = 0; i < n; i++) f(i)], from index [i] on, collecting
    the results. *)
Fixpoint h_loop {A} (n i : nat) (f : nat -> H A) : H (list A) :=
  match n with
  | O => hret []
  | S n' => x <~ f i ;; l <~ h_loop n' (S i) f ;; hret (x :: l)
  end.

(** [new T*[n]] followed by the loop that fills it.  Simplification: the
    pointers are stored when all elements exist. *)
Definition new_cells (n : nat) (f : nat -> H ptr) : H ptr :=
  a <~ h_new Many (Cells (repeat None n)) ;;
  l <~ h_loop n 0 f ;;
  h_put PArray a (Cells l) ;;~
  hret a.

(** message.cpp:62-88: an array member from the argument array of objects; a
    null argument leaves the member null. *)
Definition arr_build {A} (mk : A -> H ptr) (a : arr A) : H ptr :=
  match a with
  | ANull _ => hret None
  | AArr l =>
      new_cells (List.length l) (fun i =>
        match nth_error l i with
        | Some x => mk x
        | None => hundef UB_UseAfterFree
        end)
  end.

(** message.cpp:44-60: a text member; a null argument gives [new char('\0')],
    which is not an array. *)
Definition text_build (c : cptr) : H ptr :=
  o <~ c_read c ;;
  match o with
  | None => h_new One (Text [])
  | Some s => h_dup s
  end.

(** message.cpp:22-89, constructor (message.cpp:8-20 calls it with one
    recipient and null or one-element arrays). *)
Definition msg_new (from : addr_obj) (to cc bcc : arr addr_obj)
  (subject body : cptr) (atts : arr att_obj) : H msg_obj :=
  f <~ addr_copy from ;;
  s <~ text_build subject ;;
  b <~ text_build body ;;
  t <~ arr_build (fun o => new_addr (addr_copy o)) to ;;
  c <~ arr_build (fun o => new_addr (addr_copy o)) cc ;;
  d <~ arr_build (fun o => new_addr (addr_copy o)) bcc ;;
  a <~ arr_build (fun o => new_att (att_copy o)) atts ;;
  hret (mkMO f t (arr_count to) c (arr_count cc) d (arr_count bcc) s b a (arr_count atts)).

(** The loops [for (...) delete arr[i]; delete[] arr;]. *)
Definition free_addrs (arr : ptr) (n : nat) : H unit :=
  h_loop n 0 (fun i => p <~ cell arr i ;; delete_addr p) ;;~ h_del Many arr.
Definition free_atts (arr : ptr) (n : nat) : H unit :=
  h_loop n 0 (fun i => p <~ cell arr i ;; delete_att p) ;;~ h_del Many arr.

(** The same under the test [arr != nullptr] of the destructor (97, 105, 113,
    121) and of the move assignment (292, 299, 306, 313). *)
Definition drop_addrs (arr : ptr) (n : nat) : H unit :=
  match arr with None => hret tt | Some _ => free_addrs arr n end.
Definition drop_atts (arr : ptr) (n : nat) : H unit :=
  match arr with None => hret tt | Some _ => free_atts arr n end.

(** message.cpp:91-128, destructor; the sender is destroyed last, as a
    member. *)
Definition msg_destroy (m : msg_obj) : H unit :=
  h_del Many (mo_subject m) ;;~
  h_del Many (mo_body m) ;;~
  drop_addrs (mo_to m) (mo_nto m) ;;~
  drop_addrs (mo_cc m) (mo_ncc m) ;;~
  drop_addrs (mo_bcc m) (mo_nbcc m) ;;~
  drop_atts (mo_atts m) (mo_natts m) ;;~
  addr_destroy (mo_from m).

(** message.cpp:152-157 and the like: a fresh copy of an array member, null
    when the count is 0. *)
Definition clone_addrs (arr : ptr) (n : nat) : H ptr :=
  match n with
  | O => hret None
  | S _ => new_cells n (fun i => p <~ cell arr i ;; o <~ get_addr p ;; new_addr (addr_copy o))
  end.
Definition clone_atts (arr : ptr) (n : nat) : H ptr :=
  match n with
  | O => hret None
  | S _ => new_cells n (fun i => p <~ cell arr i ;; o <~ get_att p ;; new_att (att_copy o))
  end.

(** message.cpp:131-182, copy constructor. *)
Definition msg_copy (other : msg_obj) : H msg_obj :=
  f <~ addr_copy (mo_from other) ;;
  ss <~ h_text PArg (mo_subject other) ;;
  s <~ h_dup ss ;;
  bs <~ h_text PArg (mo_body other) ;;
  b <~ h_dup bs ;;
  t <~ clone_addrs (mo_to other) (mo_nto other) ;;
  c <~ clone_addrs (mo_cc other) (mo_ncc other) ;;
  d <~ clone_addrs (mo_bcc other) (mo_nbcc other) ;;
  a <~ clone_atts (mo_atts other) (mo_natts other) ;;
  hret (mkMO f t (mo_nto other) c (mo_ncc other) d (mo_nbcc other) s b a (mo_natts other)).

(** message.cpp:200-212 and the like: replacing an array member in the copy
    assignment.  The old array is freed when its count is positive; the new
    one is made when the source count is positive, otherwise the member keeps
    the old pointer. *)
Definition replace_addrs (this : ptr) (n : nat) (other : ptr) (k : nat) : H ptr :=
  match n with O => hret tt | S _ => free_addrs this n end ;;~
  match k with O => hret this | S _ => clone_addrs other k end.
Definition replace_atts (this : ptr) (n : nat) (other : ptr) (k : nat) : H ptr :=
  match n with O => hret tt | S _ => free_atts this n end ;;~
  match k with O => hret this | S _ => clone_atts other k end.

(** message.cpp:185-257, copy assignment from another object; mFrom is not
    assigned. *)
Definition msg_assign (this other : msg_obj) : H msg_obj :=
  h_del Many (mo_subject this) ;;~
  ss <~ h_text PArg (mo_subject other) ;;
  s <~ h_dup ss ;;
  h_del Many (mo_body this) ;;~
  bs <~ h_text PArg (mo_body other) ;;
  b <~ h_dup bs ;;
  t <~ replace_addrs (mo_to this) (mo_nto this) (mo_to other) (mo_nto other) ;;
  c <~ replace_addrs (mo_cc this) (mo_ncc this) (mo_cc other) (mo_ncc other) ;;
  d <~ replace_addrs (mo_bcc this) (mo_nbcc this) (mo_bcc other) (mo_nbcc other) ;;
  a <~ replace_atts (mo_atts this) (mo_natts this) (mo_atts other) (mo_natts other) ;;
  hret (mkMO (mo_from this) t (mo_nto other) c (mo_ncc other) d (mo_nbcc other) s b a (mo_natts other)).

(** The source of a move (message.cpp:274-283 and 334-343) whose sender is
    then [f]. *)
Definition msg_null (f : addr_obj) : msg_obj :=
  mkMO f None 0 None 0 None 0 None None None 0.

(** message.cpp:260-284, move constructor: the sender is moved too. *)
Definition msg_move (other : msg_obj) : H (msg_obj * msg_obj) :=
  fr <~ addr_move (mo_from other) ;;
  let (f, rest) := (fr : addr_obj * addr_obj) in
  hret (mkMO f (mo_to other) (mo_nto other) (mo_cc other) (mo_ncc other)
             (mo_bcc other) (mo_nbcc other) (mo_subject other) (mo_body other)
             (mo_atts other) (mo_natts other),
        msg_null rest).

(** message.cpp:287-346, move assignment from another object: the sender is
    copied (line 321 is a copy assignment). *)
Definition msg_move_assign (this other : msg_obj) : H (msg_obj * msg_obj) :=
  h_del Many (mo_subject this) ;;~
  h_del Many (mo_body this) ;;~
  drop_addrs (mo_to this) (mo_nto this) ;;~
  drop_addrs (mo_cc this) (mo_ncc this) ;;~
  drop_addrs (mo_bcc this) (mo_nbcc this) ;;~
  drop_atts (mo_atts this) (mo_natts this) ;;~
  f <~ addr_assign (mo_from this) (mo_from other) ;;
  hret (mkMO f (mo_to other) (mo_nto other) (mo_cc other) (mo_ncc other)
             (mo_bcc other) (mo_nbcc other) (mo_subject other) (mo_body other)
             (mo_atts other) (mo_natts other),
        msg_null (mo_from other)).

(** ** The memory of a client *)

(** smtpclientbase.h: the pointer members of SMTPClientBase. *)
Record base_obj := mkBO {
  bo_server : ptr; bo_log : ptr; bo_resp : ptr; bo_auth : ptr; bo_cred : ptr }.

(** smtpclientbase.cpp:42-64, constructor. *)
Definition base_new (server : cptr) : H base_obj :=
  s <~ c_read server ;;
  bad <~ hlift (null_or_blank s) ;;
  if bad then hlift Throw
  else
    p <~ c_dup server ;;
    hret (mkBO p None None None None).

(** smtpclientbase.cpp:66-77, destructor. *)
Definition base_destroy (o : base_obj) : H unit :=
  h_del Many (bo_server o) ;;~
  h_del Many (bo_log o) ;;~
  h_del Many (bo_resp o) ;;~
  h_del One (bo_auth o) ;;~
  delete_cred (bo_cred o).

(** [p != nullptr ? new char[strlen(p) + 1] : nullptr] and the copy. *)
Definition dup_or_null (p : ptr) : H ptr :=
  match p with
  | None => hret None
  | Some _ => s <~ h_text PArg p ;; h_dup s
  end.
(** [p != nullptr ? new ServerAuthOptions( *p) : nullptr]. *)
Definition auth_or_null (p : ptr) : H ptr :=
  match p with
  | None => hret None
  | Some _ => h_get PAuth p ;;~ h_new One AuthObj
  end.
(** [p != nullptr ? new Credential( *p) : nullptr]. *)
Definition cred_or_null (p : ptr) : H ptr :=
  match p with
  | None => hret None
  | Some _ => o <~ get_cred p ;; new_cred (cred_copy o)
  end.

(** smtpclientbase.cpp:80-111, copy constructor. *)
Definition base_copy (o : base_obj) : H base_obj :=
  s <~ h_text PServer (bo_server o) ;;
  ps <~ h_dup s ;;
  pl <~ dup_or_null (bo_log o) ;;
  pr <~ dup_or_null (bo_resp o) ;;
  pa <~ auth_or_null (bo_auth o) ;;
  pc <~ cred_or_null (bo_cred o) ;;
  hret (mkBO ps pl pr pa pc).

(** smtpclientbase.cpp:114-153, assignment from another object: the old log
    (127), server answer (135) and credential (147) are not freed. *)
Definition base_assign (this other : base_obj) : H base_obj :=
  h_del Many (bo_server this) ;;~
  s <~ h_text PServer (bo_server other) ;;
  ps <~ h_dup s ;;
  pl <~ dup_or_null (bo_log other) ;;
  pr <~ dup_or_null (bo_resp other) ;;
  h_del One (bo_auth this) ;;~
  pa <~ auth_or_null (bo_auth other) ;;
  pc <~ cred_or_null (bo_cred other) ;;
  hret (mkBO ps pl pr pa pc).

(** smtpclientbase.cpp:156-186, move constructor. *)
Definition base_null : base_obj := mkBO None None None None None.
Definition base_move (other : base_obj) : H (base_obj * base_obj) :=
  hret (other, base_null).

(** smtpclientbase.cpp:189-228, move assignment from another object. *)
Definition base_move_assign (this other : base_obj) : H (base_obj * base_obj) :=
  h_del Many (bo_server this) ;;~
  h_del Many (bo_log this) ;;~
  h_del Many (bo_resp this) ;;~
  h_del One (bo_auth this) ;;~
  delete_cred (bo_cred this) ;;~
  hret (other, base_null).

(** smtpclientbase.cpp:258-268 [setServerName]: checks, deletes, then reads
    the argument. *)
Definition base_setServerName (this : base_obj) (server : cptr) : H base_obj :=
  s <~ c_read server ;;
  bad <~ hlift (null_or_blank s) ;;
  if bad then hlift Throw
  else
    h_del Many (bo_server this) ;;~
    p <~ c_dup server ;;
    hret (mkBO p (bo_log this) (bo_resp this) (bo_auth this) (bo_cred this)).

(** smtpclientbase.cpp:278-281 [setCredentials]; [src] reads the argument
    object. *)
Definition base_setCredentials (this : base_obj) (src : H cred_obj) : H base_obj :=
  delete_cred (bo_cred this) ;;~
  p <~ new_cred (o <~ src ;; cred_copy o) ;;
  hret (mkBO (bo_server this) (bo_log this) (bo_resp this) (bo_auth this) p).

(** What sending a mail does to the memory of the client, one action at a
    time.  The order and number of the actions, and whether the log has to
    grow, are left open: sendMail performs some sequence of them. *)
Inductive talk :=
| TStart                    (* smtpclientbase.cpp:376-379: a new empty log *)
| TLog (grow : bool) (s : str)   (* 1026-1042: the log becomes [s] *)
| TAnswer (s : str)         (* 752-757: mLastServerResponse becomes [s] *)
| TAuth (ehlo : str).       (* 310-313 with the result of 1120-1141 for the answer [ehlo] *)

(** smtpclientbase.cpp:1081-1118 [ParseAuthenticationOptions]: a new object if
    the line announces mechanisms. *)
Definition parse_auth (line : str) : H ptr :=
  match ParseAuthenticationOptions line with
  | Some _ => h_new One AuthObj
  | None => hret None
  end.

(** smtpclientbase.cpp:1120-1141 [extractAuthenticationOptions]: the loop of
    [extract_auth_loop].  An object found at line 1137 is forgotten when line
    1132 stores the one found in the next round. *)
Fixpoint auth_loop (fuel : nat) (text : str) (ret : ptr) : H ptr :=
  match fuel with
  | O => hret ret
  | S f =>
      match find_sub CRLF text with
      | None => hret ret
      | Some n =>
          p <~ parse_auth (firstn n text) ;;
          match p with
          | Some _ => hret p
          | None =>
              let rest := skipn (n + 2) text in
              r <~ match rest, ret with
                   | _ :: _, None => parse_auth rest
                   | _, _ => hret ret
                   end ;;
              auth_loop f rest r
          end
      end
  end.
Definition auth_extract (ehlo : str) : H ptr := auth_loop (S (length (cstr ehlo))) (cstr ehlo) None.

Definition base_talk (this : base_obj) (t : talk) : H base_obj :=
  match t with
  | TStart =>
      h_del Many (bo_log this) ;;~
      p <~ h_dup [] ;;
      hret (mkBO (bo_server this) p (bo_resp this) (bo_auth this) (bo_cred this))
  | TLog grow s =>
      h_text PLog (bo_log this) ;;~
      if grow then
        p <~ h_dup s ;;
        h_del Many (bo_log this) ;;~
        hret (mkBO (bo_server this) p (bo_resp this) (bo_auth this) (bo_cred this))
      else
        h_put PLog (bo_log this) (Text s) ;;~
        hret this
  | TAnswer s =>
      h_del Many (bo_resp this) ;;~
      p <~ h_dup s ;;
      hret (mkBO (bo_server this) (bo_log this) p (bo_auth this) (bo_cred this))
  | TAuth ehlo =>
      p <~ auth_extract ehlo ;;
      h_del One (bo_auth this) ;;~
      hret (mkBO (bo_server this) (bo_log this) (bo_resp this) p (bo_cred this))
  end.

(** ** The clients of the string API *)

(** cpp/smtpclient.hpp and the two secure ones: the base class and the member
    [Credential *mCredential = nullptr].  All special members are defaulted:
    they copy that pointer and never free it. *)
Record cpp_obj := mkPO { po_base : base_obj; po_cred : ptr }.

(** cpp/smtpclient.cpp:6-8. *)
Definition cpp_new (server : cptr) : H cpp_obj :=
  b <~ base_new server ;; hret (mkPO b None).

(** cpp/smtpclient.hpp:40, destructor = default. *)
Definition cpp_destroy (o : cpp_obj) : H unit := base_destroy (po_base o).

(** cpp/smtpclient.hpp:43, copy constructor = default. *)
Definition cpp_copy (o : cpp_obj) : H cpp_obj :=
  b <~ base_copy (po_base o) ;; hret (mkPO b (po_cred o)).

(** cpp/smtpclient.hpp:46, copy assignment = default. *)
Definition cpp_assign (this other : cpp_obj) : H cpp_obj :=
  b <~ base_assign (po_base this) (po_base other) ;; hret (mkPO b (po_cred other)).

(** cpp/smtpclient.hpp:49, move constructor = default: the pointer stays in
    the source as well. *)
Definition cpp_move (other : cpp_obj) : H (cpp_obj * cpp_obj) :=
  bb <~ base_move (po_base other) ;;
  let (b, rest) := (bb : base_obj * base_obj) in
  hret (mkPO b (po_cred other), mkPO rest (po_cred other)).

(** cpp/smtpclient.hpp:52, move assignment = default. *)
Definition cpp_move_assign (this other : cpp_obj) : H (cpp_obj * cpp_obj) :=
  bb <~ base_move_assign (po_base this) (po_base other) ;;
  let (b, rest) := (bb : base_obj * base_obj) in
  hret (mkPO b (po_cred other), mkPO rest (po_cred other)).

(** cpp/smtpclient.cpp:50-55 and cpp/forcedsecuresmtpclient.cpp:54-60
    [setCredentials]: a temporary Credential from the two texts (as
    std::string: null is undefined), then the base class setter, then the
    member.  [src] reads the argument object.
    The recommended method of the temporary differs between the clients; it
    does not matter for the memory. *)
Definition cpp_setCredentials (this : cpp_obj) (src : H cred_obj) : H cpp_obj :=
  a <~ src ;;
  u <~ h_text PArg (co_user a) ;;
  w <~ h_text PArg (co_pass a) ;;
  tmp <~ cred_new (CCaller u) (CCaller w) ;;
  b <~ base_setCredentials (po_base this) (hret tmp) ;;
  cred_destroy tmp ;;~
  delete_cred (po_cred this) ;;~
  p <~ new_cred (o <~ src ;; cred_copy o) ;;
  hret (mkPO b p).

(** ** Programs *)

(** The objects of a program.  [OGone] is an object that was destroyed or
    whose constructor threw. *)
Inductive obj :=
| OAddr (o : addr_obj)
| OAtt (o : att_obj)
| OCred (o : cred_obj)
| OMsg (o : msg_obj)
| OBase (o : base_obj)
| OCpp (o : cpp_obj)
| OGone.

Definition pool := list obj.

Definition get (i : nat) (p : pool) : obj := nth i p OGone.

Fixpoint set (i : nat) (x : obj) (p : pool) : pool :=
  match p, i with
  | [], _ => []
  | _ :: r, O => x :: r
  | y :: r, S i' => y :: set i' x r
  end.

(** A text argument of an operation: null, a text of the caller, or what the
    getter number [k] of object [i] returns at that moment. *)
Inductive arg :=
| ANullptr
| ACaller (s : str)
| AGetter (i k : nat).

(** The pointers an object hands out: getEmailAddress, getDisplayName;
    getName, getFilename, getContentId; getUsername, getPassword; getSubject,
    getBody and getFrom(); getServerName, getCommunicationLog. *)
Definition getter (o : obj) (k : nat) : ptr :=
  match o, k with
  | OAddr a, 0 => ao_email a | OAddr a, 1 => ao_name a
  | OAtt a, 0 => to_name a | OAtt a, 1 => to_file a | OAtt a, 2 => to_cid a
  | OCred c, 0 => co_user c | OCred c, 1 => co_pass c
  | OMsg m, 0 => mo_subject m | OMsg m, 1 => mo_body m
  | OMsg m, 2 => ao_email (mo_from m) | OMsg m, 3 => ao_name (mo_from m)
  | OBase b, 0 => bo_server b | OBase b, 1 => bo_log b
  | OCpp c, 0 => bo_server (po_base c) | OCpp c, 1 => bo_log (po_base c)
  | _, _ => None
  end.

Definition eval (p : pool) (a : arg) : cptr :=
  match a with
  | ANullptr => CNull
  | ACaller s => CCaller s
  | AGetter i k => CInside (getter (get i p) k)
  end.

(** A credential argument: a Credential object of the program, or the one
    that getCredentials() of client [i] designates. *)
Inductive credarg :=
| KObject (i : nat)
| KOfClient (i : nat).

(** The array arguments of a message: indexes of objects of the program. *)
Inductive hop :=
| VAddr (email name : arg)
| VAtt (file name cid : arg)
| VCred (user pass : arg)
| VCred3 (user pass : arg) (m : authmethod)
| VMsg (from : nat) (to cc bcc : arr nat) (subject body : arg) (atts : arr nat)
| VBase (server : arg)
| VCpp (server : arg)
| VCopy (i : nat)
| VMove (i : nat)
| VAssign (i j : nat)             (* object i = object j *)
| VMoveAssign (i j : nat)         (* object i = std::move(object j) *)
| VSetContentId (i : nat) (c : arg)
| VSetUsername (i : nat) (u : arg)
| VSetPassword (i : nat) (p : arg)
| VSetMethod (i : nat) (m : authmethod)
| VSetServer (i : nat) (s : arg)
| VSetCredentials (i : nat) (c : credarg)
| VTalk (i : nat) (t : talk)
| VRead (i : nat)                 (* read everything the getters give *)
| VDestroy (i : nat).

(** Objects of one kind in a list of indexes; [None] when some index is of
    another kind (then the program would not compile). *)
Fixpoint addrs_of (p : pool) (l : list nat) : option (list addr_obj) :=
  match l with
  | [] => Some []
  | i :: r => match get i p, addrs_of p r with
              | OAddr o, Some q => Some (o :: q)
              | _, _ => None
              end
  end.
Fixpoint atts_of (p : pool) (l : list nat) : option (list att_obj) :=
  match l with
  | [] => Some []
  | i :: r => match get i p, atts_of p r with
              | OAtt o, Some q => Some (o :: q)
              | _, _ => None
              end
  end.
Definition addr_array (p : pool) (a : arr nat) : option (arr addr_obj) :=
  match a with
  | ANull n => Some (ANull n)
  | AArr l => option_map AArr (addrs_of p l)
  end.
Definition att_array (p : pool) (a : arr nat) : option (arr att_obj) :=
  match a with
  | ANull n => Some (ANull n)
  | AArr l => option_map AArr (atts_of p l)
  end.

(** The credential argument [c]: [None] when there is no such object. *)
Definition cred_source (p : pool) (c : credarg) : option (H cred_obj) :=
  match c with
  | KObject i => match get i p with OCred o => Some (hret o) | _ => None end
  | KOfClient i => match get i p with
                   | OBase o => Some (get_cred (bo_cred o))
                   | OCpp o => Some (get_cred (po_cred o))
                   | _ => None
                   end
  end.

(** Reading a text a getter returned, null allowed. *)
Definition peek (p : ptr) : H (option str) :=
  match p with
  | None => hret None
  | Some _ => s <~ h_text PArg p ;; hret (Some s)
  end.

Definition read_addr (o : addr_obj) : H (option str * option str) :=
  e <~ peek (ao_email o) ;; n <~ peek (ao_name o) ;; hret (e, n).
Definition read_att (o : att_obj) : H (option str * option str * option str) :=
  n <~ peek (to_name o) ;; f <~ peek (to_file o) ;; c <~ peek (to_cid o) ;; hret (n, f, c).
Definition read_cred (o : cred_obj) : H (option str * option str * authmethod) :=
  u <~ peek (co_user o) ;; p <~ peek (co_pass o) ;; hret (u, p, co_method o).

(** getTo() and getToCount(): the elements, or [None] when getTo() is null. *)
Definition read_addrs (arr : ptr) (n : nat) : H (option (list (option str * option str))) :=
  match arr with
  | None => hret None
  | Some _ => l <~ h_loop n 0 (fun i => p <~ cell arr i ;; o <~ get_addr p ;; read_addr o) ;;
              hret (Some l)
  end.
Definition read_atts (arr : ptr) (n : nat)
  : H (option (list (option str * option str * option str))) :=
  match arr with
  | None => hret None
  | Some _ => l <~ h_loop n 0 (fun i => p <~ cell arr i ;; o <~ get_att p ;; read_att o) ;;
              hret (Some l)
  end.

(** Everything the getters of a message show (message.cpp:348-390). *)
Record msg_view := mkView {
  w_from : option str * option str;
  w_to : option (list (option str * option str)); w_nto : nat;
  w_cc : option (list (option str * option str)); w_ncc : nat;
  w_bcc : option (list (option str * option str)); w_nbcc : nat;
  w_subject : option str; w_body : option str;
  w_atts : option (list (option str * option str * option str)); w_natts : nat }.

Definition read_msg (m : msg_obj) : H msg_view :=
  f <~ read_addr (mo_from m) ;;
  t <~ read_addrs (mo_to m) (mo_nto m) ;;
  c <~ read_addrs (mo_cc m) (mo_ncc m) ;;
  d <~ read_addrs (mo_bcc m) (mo_nbcc m) ;;
  s <~ peek (mo_subject m) ;;
  b <~ peek (mo_body m) ;;
  a <~ read_atts (mo_atts m) (mo_natts m) ;;
  hret (mkView f t (mo_nto m) c (mo_ncc m) d (mo_nbcc m) s b a (mo_natts m)).

(** getServerName, getCommunicationLog, getCredentials. *)
Definition read_base (o : base_obj) : H unit :=
  peek (bo_server o) ;;~
  peek (bo_log o) ;;~
  match bo_cred o with
  | None => hret tt
  | Some _ => c <~ get_cred (bo_cred o) ;; read_cred c ;;~ hret tt
  end.
Definition read_cpp (o : cpp_obj) : H unit :=
  peek (bo_server (po_base o)) ;;~
  peek (bo_log (po_base o)) ;;~
  match po_cred o with
  | None => hret tt
  | Some _ => c <~ get_cred (po_cred o) ;; read_cred c ;;~ hret tt
  end.

(** What an operation yields: a new object, or new values of objects [i] and
    [j].  An operation on an object of the wrong kind, or on one that does not
    exist any more, is not a program; the model ignores it. *)
Definition push (p : pool) (m : H obj) : H pool := o <~ m ;; hret (p ++ [o]).
Definition put1 (p : pool) (i : nat) (m : H obj) : H pool := o <~ m ;; hret (set i o p).
Definition put2 (p : pool) (i j : nat) (m : H (obj * obj)) : H pool :=
  oo <~ m ;; let (a, b) := (oo : obj * obj) in hret (set j b (set i a p)).
Definition pushput (p : pool) (j : nat) (m : H (obj * obj)) : H pool :=
  oo <~ m ;; let (a, b) := (oo : obj * obj) in hret (set j b p ++ [a]).
Definition wrap {A} (c : A -> obj) (m : H A) : H obj := a <~ m ;; hret (c a).
Definition wrap2 {A} (c : A -> obj) (m : H (A * A)) : H (obj * obj) :=
  ab <~ m ;; let (a, b) := (ab : A * A) in hret (c a, c b).

Definition hstep (p : pool) (o : hop) : H pool :=
  match o with
  | VAddr e n => push p (wrap OAddr (addr_new (eval p e) (eval p n)))
  | VAtt f n c => push p (wrap OAtt (att_new (eval p f) (eval p n) (eval p c)))
  | VCred u w => push p (wrap OCred (cred_new (eval p u) (eval p w)))
  | VCred3 u w m => push p (wrap OCred (cred_new3 (eval p u) (eval p w) m))
  | VMsg f t c d s b a =>
      match get f p, addr_array p t, addr_array p c, addr_array p d, att_array p a with
      | OAddr f', Some t', Some c', Some d', Some a' =>
          push p (wrap OMsg (msg_new f' t' c' d' (eval p s) (eval p b) a'))
      | _, _, _, _, _ => hret p
      end
  | VBase s => push p (wrap OBase (base_new (eval p s)))
  | VCpp s => push p (wrap OCpp (cpp_new (eval p s)))
  | VCopy i =>
      match get i p with
      | OAddr x => push p (wrap OAddr (addr_copy x))
      | OAtt x => push p (wrap OAtt (att_copy x))
      | OCred x => push p (wrap OCred (cred_copy x))
      | OMsg x => push p (wrap OMsg (msg_copy x))
      | OBase x => push p (wrap OBase (base_copy x))
      | OCpp x => push p (wrap OCpp (cpp_copy x))
      | OGone => hret p
      end
  | VMove i =>
      match get i p with
      | OAddr x => pushput p i (wrap2 OAddr (addr_move x))
      | OAtt x => pushput p i (wrap2 OAtt (att_move x))
      | OCred x => pushput p i (wrap2 OCred (cred_move x))
      | OMsg x => pushput p i (wrap2 OMsg (msg_move x))
      | OBase x => pushput p i (wrap2 OBase (base_move x))
      | OCpp x => pushput p i (wrap2 OCpp (cpp_move x))
      | OGone => hret p
      end
  | VAssign i j =>
      if Nat.eqb i j then hret p (* the test this != &other *) else
      match get i p, get j p with
      | OAddr x, OAddr y => put1 p i (wrap OAddr (addr_assign x y))
      | OAtt x, OAtt y => put1 p i (wrap OAtt (att_assign x y))
      | OCred x, OCred y => put1 p i (wrap OCred (cred_assign x y))
      | OMsg x, OMsg y => put1 p i (wrap OMsg (msg_assign x y))
      | OBase x, OBase y => put1 p i (wrap OBase (base_assign x y))
      | OCpp x, OCpp y => put1 p i (wrap OCpp (cpp_assign x y))
      | _, _ => hret p
      end
  | VMoveAssign i j =>
      if Nat.eqb i j then hret p else
      match get i p, get j p with
      | OAddr x, OAddr y => put2 p i j (wrap2 OAddr (addr_move_assign x y))
      | OAtt x, OAtt y => put2 p i j (wrap2 OAtt (att_move_assign x y))
      | OCred x, OCred y => put2 p i j (wrap2 OCred (cred_move_assign x y))
      | OMsg x, OMsg y => put2 p i j (wrap2 OMsg (msg_move_assign x y))
      | OBase x, OBase y => put2 p i j (wrap2 OBase (base_move_assign x y))
      | OCpp x, OCpp y => put2 p i j (wrap2 OCpp (cpp_move_assign x y))
      | _, _ => hret p
      end
  | VSetContentId i c =>
      match get i p with
      | OAtt x => put1 p i (wrap OAtt (att_setContentId x (eval p c)))
      | _ => hret p
      end
  | VSetUsername i u =>
      match get i p with
      | OCred x => put1 p i (wrap OCred (cred_setUsername x (eval p u)))
      | _ => hret p
      end
  | VSetPassword i w =>
      match get i p with
      | OCred x => put1 p i (wrap OCred (cred_setPassword x (eval p w)))
      | _ => hret p
      end
  | VSetMethod i m =>
      match get i p with
      | OCred x => put1 p i (wrap OCred (cred_setMethod x m))
      | _ => hret p
      end
  | VSetServer i s =>
      match get i p with
      | OBase x => put1 p i (wrap OBase (base_setServerName x (eval p s)))
      | OCpp x =>
          put1 p i (wrap OCpp (b <~ base_setServerName (po_base x) (eval p s) ;;
                               hret (mkPO b (po_cred x))))
      | _ => hret p
      end
  | VSetCredentials i c =>
      match get i p, cred_source p c with
      | OBase x, Some src => put1 p i (wrap OBase (base_setCredentials x src))
      | OCpp x, Some src => put1 p i (wrap OCpp (cpp_setCredentials x src))
      | _, _ => hret p
      end
  | VTalk i t =>
      match get i p with
      | OBase x => put1 p i (wrap OBase (base_talk x t))
      | OCpp x =>
          put1 p i (wrap OCpp (b <~ base_talk (po_base x) t ;; hret (mkPO b (po_cred x))))
      | _ => hret p
      end
  | VRead i =>
      match get i p with
      | OAddr x => read_addr x ;;~ hret p
      | OAtt x => read_att x ;;~ hret p
      | OCred x => read_cred x ;;~ hret p
      | OMsg x => read_msg x ;;~ hret p
      | OBase x => read_base x ;;~ hret p
      | OCpp x => read_cpp x ;;~ hret p
      | OGone => hret p
      end
  | VDestroy i =>
      match get i p with
      | OAddr x => put1 p i (addr_destroy x ;;~ hret OGone)
      | OAtt x => put1 p i (att_destroy x ;;~ hret OGone)
      | OCred x => put1 p i (cred_destroy x ;;~ hret OGone)
      | OMsg x => put1 p i (msg_destroy x ;;~ hret OGone)
      | OBase x => put1 p i (base_destroy x ;;~ hret OGone)
      | OCpp x => put1 p i (cpp_destroy x ;;~ hret OGone)
      | OGone => hret p
      end
  end.

(** Running a program.  After an exception the program goes on: a constructor
    that threw leaves no object ([OGone]), a setter that threw leaves the
    object as it was.  Anything undefined stops the run. *)
Definition is_ctor (o : hop) : bool :=
  match o with
  | VAddr _ _ | VAtt _ _ _ | VCred _ _ | VCred3 _ _ _ | VMsg _ _ _ _ _ _ _
  | VBase _ | VCpp _ => true
  | _ => false
  end.

Fixpoint hrun (l : list hop) (p : pool) (h : heap) : outcome pool * heap :=
  match l with
  | [] => (Done p, h)
  | o :: r =>
      match hstep p o h with
      | (Done p', h') => hrun r p' h'
      | (Throw, h') => hrun r (if is_ctor o then p ++ [OGone] else p) h'
      | (Undef u, h') => (Undef u, h')
      | (Blocked, h') => (Blocked, h')
      | (Killed, h') => (Killed, h')
      | (Diverge, h') => (Diverge, h')
      end
  end.

Definition hexec (l : list hop) : outcome pool * heap := hrun l [] empty_heap.
