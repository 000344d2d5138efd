(** Error messages, encoded files and ErrorResolver objects: C70, C71. *)

From Coq Require Import Ascii String List NArith ZArith Bool Arith Lia.
From Verif Require Import Base ModelErrors ModelAttachment ModelHeap ModelBuffers SpecBuffers ProofBuffers.
Import ListNotations.
Open Scope nat_scope.

(** C70: whatever a program does with ErrorResolver objects and returned texts,
    it sees what it would see if they were plain values, and it fails exactly
    where [vexec] says so. *)
Theorem C70_as_values : forall l,
  match values l with
  | Done (xs, _) => exists st h, bprogram l = (Done (xs, st), h)
  | Undef u => exists h, bprogram l = (Undef u, h)
  | _ => False
  end.
Proof. exact program_as_values. Qed.
Print Assumptions C70_as_values.

(** C70: no memory error, unless the program copies an object whose content was
    moved away (or frees twice, or lies about the size of a buffer). *)
Theorem C70_no_memory_error_partial : forall l, sensible l (mkV [] [] 0) ->
  exists xs v st h, values l = Done (xs, v) /\ bprogram l = (Done (xs, st), h).
Proof. exact program_sensible. Qed.
Print Assumptions C70_no_memory_error_partial.

(** Two objects, one copied, assigned, moved; all destroyed. *)
Definition shuffle : list bop :=
  [BMake (-1); BCopy 0; BMake (-2); BAssign 1 2; BMove 2; BCode 1; BMessage 0; BMessage 1; BMessage 2; BMessage 3;
   BMoveAssign 2 0; BMessage 2; BDestroy 0; BDestroy 1; BDestroy 2; BDestroy 3].

Example C70_example : sensible shuffle (mkV [] [] 0) /\ exists st,
  bprogram shuffle = (Done ([SeeNothing; SeeNothing; SeeNothing; SeeNothing; SeeNothing; SeeNumber (-2);
    SeeText (Some (B "Unable to create the socket")); SeeText (Some (B "Unable to connect to the socket"));
    SeeText None; SeeText (Some (B "Unable to connect to the socket")); SeeNothing;
    SeeText (Some (B "Unable to create the socket")); SeeNothing; SeeNothing; SeeNothing; SeeNothing], st), mkHeap 4 []).
Proof.
  split; [|eexists; vm_compute; reflexivity].
  cbn. repeat (split; [first [exact Logic.I | intros ? ?; discriminate]|]; intros ? ? E; injection E as <- <-; cbn).
  exact Logic.I.
Qed.

(** C70 fails: copying an object whose content was moved away, or assigning from
    it, reads through a null pointer. *)
Theorem C70_moved_from_refuted : forall c,
  (exists h, bprogram [BMake c; BMove 0; BCopy 0] = (Undef (UB_NullDeref PArg), h)) /\
  (exists h, bprogram [BMake c; BMove 0; BAssign 1 0] = (Undef (UB_NullDeref PArg), h)).
Proof. exact moved_from. Qed.
Print Assumptions C70_moved_from_refuted.

(** C71: the blocks alive at the end are the messages of the living objects, the
    returned texts that were not freed, and one for each call of the string
    interface that returned such a text. *)
Theorem C71_memory : forall l xs v st h, values l = Done (xs, v) -> bprogram l = (Done (xs, st), h) ->
  length (h_live h) = held v + list_sum (map leaked l).
Proof. exact program_memory. Qed.
Print Assumptions C71_memory.

(** C71: a program that destroys its objects, frees what it was given and does
    not use the string interface leaves nothing behind.  Missing: the string
    interface. *)
Theorem C71_no_leak_partial : forall l xs v st h, values l = Done (xs, v) -> bprogram l = (Done (xs, st), h) ->
  cleaned v -> Forall (fun o => cpp_op o = false) l -> h_live h = [].
Proof. exact program_clean. Qed.
Print Assumptions C71_no_leak_partial.

Definition one_file : filesystem := fun f => if str_eqb f (B "a.txt") then Some (B "hello") else None.
Definition errands : list bop :=
  [BError (-1); BFile one_file (mkAtt (B "a") (B "a.txt") []); BFile one_file (mkAtt (B "b") (B "b.txt") []);
   BText one_file [mkAtt (B "a") (B "a.txt") []; mkAtt (B "b") (B "b.txt") []]; BErrorR (-1) (Some (B "########")) 8;
   BFree 0; BRead 1; BRead 2; BFree 1; BFree 2].

Example C71_example : exists xs v st h, values errands = Done (xs, v) /\ bprogram errands = (Done (xs, st), h) /\
  cleaned v /\ Forall (fun o => cpp_op o = false) errands /\ h_live h = [] /\ nth_error xs 6 = Some (SeeText (Some (B "aGVsbG8="))).
Proof.
  eexists. eexists. eexists. eexists. split; [vm_compute; reflexivity|]. split; [vm_compute; reflexivity|].
  split; [split; repeat constructor; discriminate|]. split; [repeat constructor|]. split; vm_compute; reflexivity.
Qed.

(** C71 fails: every call of the string interface's getErrorMessage loses the
    memory of the message. *)
Theorem C71_string_interface_refuted : forall c n, exists xs v st h, values (repeat (BCppError c) n) = Done (xs, v) /\
  bprogram (repeat (BCppError c) n) = (Done (xs, st), h) /\ cleaned v /\ length (h_live h) = n.
Proof. exact program_leak. Qed.
Print Assumptions C71_string_interface_refuted.
