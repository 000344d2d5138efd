(** Vocabulary for the property about lack of memory. *)

From Coq Require Import Ascii String List NArith ZArith Bool Arith.
From Verif Require Import Base ModelUtil ModelMessage ModelHeap ModelScarce SpecHeap.
Import ListNotations.
Open Scope nat_scope.

(** The operations that allocate before they free or change anything: the
    constructors, setContentId, storing a longer log, reading the answer to
    EHLO, and those that allocate nothing.  Not among them: copy assignments,
    the setters, the start of a session and storing an answer of the server,
    and the move assignment of messages. *)
Definition firm (p : pool) (o : hop) : Prop :=
  match o with
  | VAssign _ _ | VSetUsername _ _ | VSetPassword _ _ | VSetServer _ _ | VSetCredentials _ _ => False
  | VTalk _ TStart | VTalk _ (TAnswer _) => False
  | VMoveAssign i j => match get i p, get j p with OMsg _, OMsg _ => False | _, _ => True end
  | _ => True
  end.

(** Operation [o] runs out of memory when there is memory for [q] allocations. *)
Definition runs_out (p : pool) (o : hop) (q : quota) (h : heap) : Prop :=
  (exists p' h', m_step p o q h = (NoMemory p', h')) \/ exists h', m_step p o q h = (Terminated, h').

(** Every operation of program [l] satisfies [C] at the moment it is done. *)
Definition along_scarce (C : pool -> hop -> quota -> heap -> Prop) (l : list (hop * quota)) : Prop :=
  forall l1 o q l2 p h, l = l1 ++ (o, q) :: l2 -> m_exec l1 = (Done p, h) -> C p o q h.

(** The careful programs that run out of memory only in firm operations. *)
Definition prudent (p : pool) (o : hop) (q : quota) (h : heap) : Prop :=
  careful p o /\ (runs_out p o q h -> firm p o).

(** The operations with at most one allocation, or none. *)
Definition single (o : hop) : Prop :=
  match o with
  | VBase _ | VCpp _ | VSetContentId _ _ | VTalk _ (TLog _ _) => True
  | _ => False
  end.

(** A program that loses no memory when there is enough of it, and runs out
    of memory only in operations with one allocation. *)
Definition thrifty (p : pool) (o : hop) (q : quota) (h : heap) : Prop :=
  tidy_op p o /\ (runs_out p o q h -> single o).
