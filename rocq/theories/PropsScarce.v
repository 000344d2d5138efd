(** Lack of memory (C99).  A program is a list of operations, each with the
    number of allocations that succeed before one fails ([None]: all of them).
    [m_exec l] runs it; the program catches std::bad_alloc and goes on. *)

From Coq Require Import Ascii String List NArith ZArith Bool Arith.
From Verif Require Import Base ModelUtil ModelMessage ModelHeap ModelScarce SpecHeap SpecScarce
  ProofHeap11 ProofScarce4 ProofScarce5 ProofScarce6.
Import ListNotations.
Open Scope nat_scope.

(** ** C99 *)

(** With enough memory the model is the one of the other properties. *)
Theorem C99_enough_memory : forall l, m_exec (map (fun o => (o, None)) l) = hexec l.
Proof. exact enough_memory. Qed.
Print Assumptions C99_enough_memory.

(** C99, for programs that run out of memory only in operations that allocate
    before they free: no memory error, whatever the program does afterwards;
    and every object can be read. *)
Theorem C99_no_memory_error_partial : forall l, along_scarce prudent l ->
  (exists p, fst (m_exec l) = Done p) \/ exists u, fst (m_exec l) = Undef u /\ mem_error u = false.
Proof. exact scarce_ends. Qed.
Print Assumptions C99_no_memory_error_partial.
Theorem C99_readable_partial : forall l p h k, along_scarce prudent l -> m_exec l = (Done p, h) ->
  exists s, fst (observe (get k p) h) = Done s.
Proof. exact scarce_readable. Qed.
Print Assumptions C99_readable_partial.

(** C99: such an operation that runs out of memory leaves every object as it
    was; a constructor adds no object. *)
Theorem C99_unchanged_partial : forall l p h o q p' h' k, along_scarce prudent l -> m_exec l = (Done p, h) -> firm p o ->
  m_step p o q h = (NoMemory p', h') -> (p' = p \/ p' = p ++ [OGone]) /\
  exists s, fst (observe (get k p) h) = Done s /\ fst (observe (get k p) h') = Done s.
Proof. exact strong_guarantee. Qed.
Print Assumptions C99_unchanged_partial.

(** C99: any operation that would succeed with enough memory leaves the objects
    it does not work on as they were. *)
Theorem C99_others_unchanged : forall l p h o q p' h' p1 h1 k, along_scarce prudent l -> m_exec l = (Done p, h) -> careful p o ->
  m_step p o None h = (Ended (Done p1) None, h1) -> m_step p o q h = (NoMemory p', h') -> ~ touches o k -> k < length p ->
  get k p' = get k p /\ exists s, fst (observe (get k p) h) = Done s /\ fst (observe (get k p') h') = Done s.
Proof. exact others_intact. Qed.
Print Assumptions C99_others_unchanged.

(** C99: no memory is lost if only operations with one allocation fail. *)
Theorem C99_no_leak_partial : forall l p h, along_scarce prudent l -> along_scarce thrifty l -> m_exec l = (Done p, h) ->
  all_destroyed p -> h_live h = [].
Proof. exact thrifty_clean. Qed.
Print Assumptions C99_no_leak_partial.

(** C99 fails for the copy assignment of every class, setUsername, setPassword,
    setServerName, setCredentials, the start of a session and storing an answer:
    the object keeps a pointer to memory that was freed, and its destructor
    frees it again. *)
Theorem C99_destruction_refuted : forall l o i, In (l, o, i) broken ->
  along_scarce (fun p o _ _ => careful p o) (ample l ++ [(o, Some 0); (VDestroy i, None)]) /\
  (exists p, fst (hexec (l ++ [o; VDestroy i])) = Done p) /\
  fst (m_exec (ample l ++ [(o, Some 0); (VDestroy i, None)])) = Undef UB_DoubleFree.
Proof. exact broken_destruction. Qed.
Print Assumptions C99_destruction_refuted.

(** C99 fails: the move assignment of messages allocates in a function declared
    noexcept, so that lack of memory ends the program. *)
Theorem C99_move_refuted : exists l, along_scarce (fun p o _ _ => careful p o) l /\ fst (m_exec l) = Killed /\
  l = ample [ann; mail1; mail1] ++ [(VMoveAssign 1 2, Some 0)].
Proof. exact move_kills. Qed.
Print Assumptions C99_move_refuted.

(** C99 fails: a constructor whose second allocation fails loses the first
    one. *)
Theorem C99_leak_refuted : exists l p h, along_scarce prudent l /\ m_exec l = (Done p, h) /\ all_destroyed p /\ length (h_live h) = 1 /\
  l = [(ann, Some 1)].
Proof. exact constructor_leaks. Qed.
Print Assumptions C99_leak_refuted.

(** Nine operations of this program run out of memory, among them the
    construction and the copy of a message with recipients and attachments. *)
Example C99_example : along_scarce prudent lean_tour /\
  match m_exec lean_tour with
  | (Done p, h) => length p = 14 /\ get 4 p = OGone /\ length (h_live h) = 49 /\
      (exists o, get 13 p = OMsg o) /\ get 7 p = OGone /\ get 10 p = OGone
  | _ => False
  end.
Proof. split; [ exact lean_tour_prudent | ]. vm_compute. repeat split; try reflexivity. eexists. reflexivity. Qed.

(** The copy assignment from client 5 to its copy 8 runs out of memory, with
    six other objects alive. *)
Example C99_example2 :
  let l := ample (start ++ [VTalk 5 TStart; VCopy 5]) in along_scarce prudent l /\
  match m_exec l with
  | (Done p, h) => careful p (VAssign 7 5) /\
      (exists p1 h1, m_step p (VAssign 7 5) None h = (Ended (Done p1) None, h1)) /\
      exists p' h', m_step p (VAssign 7 5) (Some 1) h = (NoMemory p', h') /\ get 7 p' <> get 7 p /\ get 6 p <> OGone
  | _ => False
  end.
Proof.
  split; [ unfold ample, start; scarce_check | ]. vm_compute. split; [ exact Logic.I | ]. split; [ do 2 eexists; reflexivity | ].
  do 2 eexists. split; [ reflexivity | ]. split; discriminate.
Qed.

(** Three operations of this program run out of memory and nothing is lost. *)
Example C99_example3 : along_scarce prudent lean_life /\ along_scarce thrifty lean_life /\
  match m_exec lean_life with (Done p, h) => length p = 4 /\ all_destroyed p /\ h_live h = [] | _ => False end.
Proof.
  split; [ exact lean_life_prudent | ]. split; [ exact lean_life_thrifty | ]. vm_compute. split; [ reflexivity | ].
  split; [ | reflexivity ]. now intros [ | [ | [ | [ | [ | i]]]]].
Qed.
