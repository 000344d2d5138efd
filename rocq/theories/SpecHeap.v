(** Vocabulary for the properties about memory and ownership.

    The operations of a program, the objects it holds and the text arguments
    it passes are those of ModelHeap ([hop], [obj], [arg]); nothing here looks
    at how an operation is carried out. *)

From Coq Require Import Ascii String List NArith ZArith Bool Arith.
From Verif Require Import Base ModelUtil ModelMessage SpecReply ModelHeap.
Import ListNotations.
Open Scope nat_scope.

(** The undefined behaviours that are errors of memory management.  The
    others are null pointers and characters isspace must not be given. *)
Definition mem_error (u : ub) : bool :=
  match u with UB_DoubleFree | UB_UseAfterFree | UB_MismatchedDelete => true | _ => false end.

Definition memory_safe {A} (r : outcome A) : Prop :=
  match r with Undef u => mem_error u = false | _ => True end.

(** ** Which programs are considered *)

(** The text argument is not a null pointer. *)
Definition present (p : pool) (a : arg) : Prop :=
  match eval p a with CNull | CInside None => False | _ => True end.

(** Operation [o], performed when the objects are [p], does none of the
    following:
    - construct a message with a null subject or body;
    - assign to a message that has recipients of some kind (or attachments)
      a message that has none of that kind;
    - give a setter the very text or credential it is about to replace;
    - call setCredentials on a cpp client while another cpp client holds the
      same credential pointer (one is a copy of the other). *)
Definition careful (p : pool) (o : hop) : Prop :=
  match o with
  | VMsg _ _ _ _ s b _ => present p s /\ present p b
  | VAssign i j =>
      match get i p, get j p with
      | OMsg m, OMsg m2 => i = j \/
          ((mo_nto m2 = 0 -> mo_nto m = 0) /\ (mo_ncc m2 = 0 -> mo_ncc m = 0) /\
           (mo_nbcc m2 = 0 -> mo_nbcc m = 0) /\ (mo_natts m2 = 0 -> mo_natts m = 0))
      | _, _ => True
      end
  | VSetUsername i u => u <> AGetter i 0
  | VSetPassword i w => w <> AGetter i 1
  | VSetServer i s => s <> AGetter i 0
  | VSetCredentials i c =>
      c <> KOfClient i /\
      match get i p with
      | OCpp x => po_cred x <> None ->
          forall j y, j <> i -> get j p = OCpp y -> po_cred y <> po_cred x
      | _ => True
      end
  | _ => True
  end.

(** The operations that do not lose memory: not setContentId, not
    setCredentials on a cpp client, no copy assignment to a client that has a
    log, a server response or a credential, and none that fills an array of a
    message that was allocated without element; no answer to EHLO that announces
    mechanisms after its first line. *)
Definition fills (a : ptr) (n k : nat) : Prop := n = 0 /\ a <> None /\ k <> 0.
Definition idle (o : base_obj) : Prop := bo_log o = None /\ bo_resp o = None /\ bo_cred o = None.
Definition announced_first (ehlo : str) : Prop :=
  auth_line (cstr ehlo) \/ ~ exists a b, cstr ehlo = a ++ CRLF ++ b /\ auth_line b.
Definition tidy_op (p : pool) (o : hop) : Prop :=
  match o with
  | VSetContentId _ _ => False
  | VSetCredentials i _ => match get i p with OCpp _ => False | _ => True end
  | VAssign i j =>
      match get i p, get j p with
      | OMsg m, OMsg m2 =>
          ~ fills (mo_to m) (mo_nto m) (mo_nto m2) /\ ~ fills (mo_cc m) (mo_ncc m) (mo_ncc m2) /\
          ~ fills (mo_bcc m) (mo_nbcc m) (mo_nbcc m2) /\ ~ fills (mo_atts m) (mo_natts m) (mo_natts m2)
      | OBase x, OBase _ => idle x
      | OCpp x, OCpp _ => idle (po_base x)
      | _, _ => True
      end
  | VTalk _ (TAuth ehlo) => announced_first ehlo
  | _ => True
  end.

(** Every operation of program [l] satisfies [C] at the moment it is done. *)
Definition along (C : pool -> hop -> Prop) (l : list hop) : Prop :=
  forall l1 o l2 p h, l = l1 ++ o :: l2 -> hexec l1 = (Done p, h) -> C p o.

(** The objects operation [o] may change. *)
Definition touches (o : hop) (k : nat) : Prop :=
  match o with
  | VMove i | VAssign i _ | VSetContentId i _ | VSetUsername i _ | VSetPassword i _ | VSetMethod i _
  | VSetServer i _ | VSetCredentials i _ | VTalk i _ | VDestroy i => k = i
  | VMoveAssign i j => k = i \/ k = j
  | _ => False
  end.

(** All objects are gone. *)
Definition all_destroyed (p : pool) : Prop := forall i, get i p = OGone.

(** A program that handles only MessageAddress, Attachment and Credential. *)
Definition value_op (o : hop) : Prop :=
  match o with
  | VMsg _ _ _ _ _ _ _ | VBase _ | VCpp _ | VSetServer _ _ | VSetCredentials _ _ | VTalk _ _ => False
  | _ => True
  end.

(** Not setUsername or setPassword with the very text the object holds. *)
Definition no_alias (o : hop) : Prop :=
  match o with
  | VSetUsername i u => u <> AGetter i 0
  | VSetPassword i w => w <> AGetter i 1
  | _ => True
  end.

(** A program without SMTP client. *)
Definition message_op (o : hop) : Prop :=
  match o with
  | VBase _ | VCpp _ | VSetServer _ _ | VSetCredentials _ _ | VTalk _ _ => False
  | _ => True
  end.

(** The elements of an array argument. *)
Definition members {A} (a : arr A) : list A := match a with ANull _ => [] | AArr l => l end.

(** ** What a message shows *)

(** The same sender, recipients, subject, body and attachments, in the same
    order.  The pointer getCc() returns for a message without Cc recipients
    may be null in one and not in the other. *)
Definition shown {A} (v : option (list A)) : list A := match v with Some l => l | None => [] end.
Definition same_but_sender (v w : msg_view) : Prop :=
  shown (w_to v) = shown (w_to w) /\ w_nto v = w_nto w /\
  shown (w_cc v) = shown (w_cc w) /\ w_ncc v = w_ncc w /\
  shown (w_bcc v) = shown (w_bcc w) /\ w_nbcc v = w_nbcc w /\
  w_subject v = w_subject w /\ w_body v = w_body w /\
  shown (w_atts v) = shown (w_atts w) /\ w_natts v = w_natts w.
Definition same_message (v w : msg_view) : Prop :=
  w_from v = w_from w /\ same_but_sender v w.

(** A message none of whose parts is missing: it was not moved from, and no
    array was given as a null pointer with a count. *)
Definition whole_text (v : option str) : Prop := v <> None.
Definition whole_addr (v : option str * option str) : Prop := fst v <> None /\ snd v <> None.
Definition whole_att (v : option str * option str * option str) : Prop :=
  fst (fst v) <> None /\ snd (fst v) <> None /\ snd v <> None.
Definition whole_list {A} (W : A -> Prop) (v : option (list A)) (n : nat) : Prop :=
  match v with None => n = 0 | Some l => Forall W l end.
Definition whole_message (v : msg_view) : Prop :=
  whole_addr (w_from v) /\ whole_list whole_addr (w_to v) (w_nto v) /\
  whole_list whole_addr (w_cc v) (w_ncc v) /\ whole_list whole_addr (w_bcc v) (w_nbcc v) /\
  whole_text (w_subject v) /\ whole_text (w_body v) /\ whole_list whole_att (w_atts v) (w_natts v).

(** ** What any object shows *)

Inductive obs :=
| SAddr (v : option str * option str)
| SAtt (v : option str * option str * option str)
| SCred (v : option str * option str * authmethod)
| SMsg (v : msg_view)
| SClient (string_api : bool) (server log : option str) (cred : option (option str * option str * authmethod))
| SGone.

Definition observe_cred (p : ptr) : H (option (option str * option str * authmethod)) :=
  match p with
  | None => hret None
  | Some _ => c <~ get_cred p ;; v <~ read_cred c ;; hret (Some v)
  end.

(** Everything the getters of the object return, and what it points to. *)
Definition observe (o : obj) : H obs :=
  match o with
  | OAddr x => v <~ read_addr x ;; hret (SAddr v)
  | OAtt x => v <~ read_att x ;; hret (SAtt v)
  | OCred x => v <~ read_cred x ;; hret (SCred v)
  | OMsg x => v <~ read_msg x ;; hret (SMsg v)
  | OBase x =>
      s <~ peek (bo_server x) ;; l <~ peek (bo_log x) ;; c <~ observe_cred (bo_cred x) ;; hret (SClient false s l c)
  | OCpp x =>
      s <~ peek (bo_server (po_base x)) ;; l <~ peek (bo_log (po_base x)) ;;
      c <~ observe_cred (po_cred x) ;; hret (SClient true s l c)
  | OGone => hret SGone
  end.
