(** Memory and ownership of the objects of a program (C47, C48, C49, C51, C63,
    C64, C65).  A program is any list of operations ([hop]); [hexec l] runs it
    on an empty heap. *)

From Coq Require Import Ascii String List NArith ZArith Bool Arith.
From Verif Require Import Base ModelUtil ModelBase64 ModelAddress ModelAttachment ModelMessage ModelHeap SpecHeap
  ProofHeap9 ProofHeap10 ProofHeap11 ProofHeap12 ProofFresh3.
Import ListNotations.
Open Scope nat_scope.

(** ** C47 *)

(** C47: a copied message shows what the source shows, and the source still
    shows it. *)
Theorem C47_copy_construction : forall l p h i m v p' h', along careful l -> hexec l = (Done p, h) ->
  get i p = OMsg m -> fst (read_msg m h) = Done v -> hstep p (VCopy i) h = (Done p', h') ->
  exists m' v', p' = p ++ [OMsg m'] /\ fst (read_msg m' h') = Done v' /\ same_message v' v /\
    fst (read_msg m h') = Done v.
Proof. exact copy_shows. Qed.
Print Assumptions C47_copy_construction.
(** C47: and copying succeeds for every message none of whose parts is
    missing. *)
Theorem C47_copy_defined : forall l p h i m v, along careful l -> hexec l = (Done p, h) -> get i p = OMsg m ->
  fst (read_msg m h) = Done v -> whole_message v -> exists p' h', hstep p (VCopy i) h = (Done p', h').
Proof. exact copy_defined. Qed.
Print Assumptions C47_copy_defined.
(** C47, moves: the new message shows exactly what the source showed. *)
Theorem C47_move_construction : forall l p h i m v, along careful l -> hexec l = (Done p, h) -> get i p = OMsg m ->
  fst (read_msg m h) = Done v ->
  exists m' r h', hstep p (VMove i) h = (Done (set i (OMsg r) p ++ [OMsg m']), h') /\ fst (read_msg m' h') = Done v.
Proof. exact move_shows. Qed.
Print Assumptions C47_move_construction.
Theorem C47_move_assignment : forall l p h i j m m2 v2 p' h', along careful l -> hexec l = (Done p, h) ->
  i <> j -> get i p = OMsg m -> get j p = OMsg m2 -> fst (read_msg m2 h) = Done v2 ->
  hstep p (VMoveAssign i j) h = (Done p', h') ->
  exists m', get i p' = OMsg m' /\ fst (read_msg m' h') = Done v2.
Proof. exact move_assign_shows. Qed.
Print Assumptions C47_move_assignment.
Theorem C47_move_assignment_defined : forall l p h i j m m2 v2, along careful l -> hexec l = (Done p, h) ->
  get i p = OMsg m -> get j p = OMsg m2 -> fst (read_msg m2 h) = Done v2 -> whole_addr (w_from v2) ->
  exists p' h', hstep p (VMoveAssign i j) h = (Done p', h').
Proof. exact move_assign_defined. Qed.
Print Assumptions C47_move_assignment_defined.
(** C47, copy assignment: everything but the sender is taken over; the target
    keeps its own sender. *)
Theorem C47_copy_assignment_partial : forall l p h i j m m2 v v2 p' h', along careful l -> hexec l = (Done p, h) ->
  careful p (VAssign i j) -> i <> j -> get i p = OMsg m -> get j p = OMsg m2 ->
  fst (read_msg m h) = Done v -> fst (read_msg m2 h) = Done v2 ->
  hstep p (VAssign i j) h = (Done p', h') ->
  exists m' v', p' = set i (OMsg m') p /\ get i p' = OMsg m' /\ fst (read_msg m' h') = Done v' /\
    same_but_sender v' v2 /\ w_from v' = w_from v /\ fst (read_msg m2 h') = Done v2.
Proof. exact assign_shows. Qed.
Print Assumptions C47_copy_assignment_partial.
Theorem C47_copy_assignment_defined : forall l p h i j m m2 v v2, along careful l -> hexec l = (Done p, h) ->
  careful p (VAssign i j) -> get i p = OMsg m -> get j p = OMsg m2 ->
  fst (read_msg m h) = Done v -> fst (read_msg m2 h) = Done v2 -> whole_message v -> whole_message v2 ->
  exists p' h', hstep p (VAssign i j) h = (Done p', h').
Proof. exact assign_defined. Qed.
Print Assumptions C47_copy_assignment_defined.
(** C47 fails for the sender. *)
Theorem C47_sender_refuted : exists l p h i j m m2 v2 p' h' m' v',
  along careful l /\ hexec l = (Done p, h) /\ careful p (VAssign i j) /\
  get i p = OMsg m /\ get j p = OMsg m2 /\ fst (read_msg m2 h) = Done v2 /\
  hstep p (VAssign i j) h = (Done p', h') /\ get i p' = OMsg m' /\ fst (read_msg m' h') = Done v' /\
  w_from v' = (Some (B "ann@example.org"), Some (B "Ann")) /\ w_from v2 = (Some (B "bob@example.org"), Some (B "")).
Proof. exact assign_keeps_sender. Qed.
Print Assumptions C47_sender_refuted.

(** Messages 4 and 7 of this program, all of whose parts are present. *)
Example C47_example : along careful other_sender /\
  match hexec other_sender with
  | (Done p, h) =>
      careful p (VAssign 4 7) /\
      match get 4 p, get 7 p with
      | OMsg m, OMsg m2 =>
          match fst (read_msg m h), fst (read_msg m2 h) with
          | Done v, Done v2 =>
              whole_message v /\ whole_message v2 /\ w_subject v = Some (B "Hello") /\ w_subject v2 = Some (B "Re") /\
              shown (w_to v) = [(Some (B "bob@example.org"), Some (B "")); (Some (B "ann@example.org"), Some (B "Ann"))] /\
              shown (w_bcc v2) = [(Some (B "ann@example.org"), Some (B "Ann"))]
          | _, _ => False
          end
      | _, _ => False
      end
  | _ => False
  end.
Proof.
  split; [ unfold other_sender, start; check | ]. vm_compute. repeat split; try (repeat constructor; discriminate); try discriminate.
Qed.

(** ** C48 *)

(** C48: no program that handles addresses, attachments and credentials makes
    an error of memory, if it never gives setUsername or setPassword the text
    the object itself returned. *)
Theorem C48_no_memory_error_partial : forall l, Forall value_op l -> Forall no_alias l ->
  memory_safe (fst (hexec l)).
Proof. exact value_safe. Qed.
Print Assumptions C48_no_memory_error_partial.
(** C48: and all memory is given back, if the program never calls
    setContentId. *)
Theorem C48_no_leak_partial : forall l p h, Forall value_op l -> Forall no_alias l ->
  (forall i c, ~ In (VSetContentId i c) l) -> hexec l = (Done p, h) -> all_destroyed p -> h_live h = [].
Proof. exact value_clean. Qed.
Print Assumptions C48_no_leak_partial.
(** C48 fails: setContentId loses the old text, and
    setUsername(getUsername()) reads freed memory. *)
Theorem C48_setContentId_refuted : exists l p h, Forall value_op l /\ Forall no_alias l /\
  hexec l = (Done p, h) /\ all_destroyed p /\ h_live h <> [].
Proof. exact setContentId_leaks. Qed.
Print Assumptions C48_setContentId_refuted.
Theorem C48_setUsername_refuted : exists l, Forall value_op l /\ fst (hexec l) = Undef UB_UseAfterFree.
Proof. exact setUsername_alias. Qed.
Print Assumptions C48_setUsername_refuted.

Example C48_example : Forall value_op values_tour /\ Forall no_alias values_tour /\
  (forall i c, ~ In (VSetContentId i c) values_tour) /\
  match hexec values_tour with (Done p, h) => length p = 9 /\ all_destroyed p | _ => False end.
Proof.
  split; [ repeat constructor | ]. split; [ repeat constructor; discriminate | ].
  split; [ intros i c; cbn; intuition discriminate | ].
  vm_compute. split; [ reflexivity | ]. intros i. do 10 (destruct i as [ | i]; [ reflexivity | ]). reflexivity.
Qed.

(** ** C49 *)

(** C49: no program that handles messages makes an error of memory, if it
    keeps the rules of [careful]: subject and body are not null, no message
    with recipients of some kind is assigned one without, and no setter of a
    credential gets the text it replaces. *)
Theorem C49_no_memory_error_partial : forall l, Forall message_op l -> along careful l -> memory_safe (fst (hexec l)).
Proof. intros l _. exact (run_safe l). Qed.
Print Assumptions C49_no_memory_error_partial.
(** C49 fails without them: double free after an assignment that removes the
    Cc recipients, deallocation with the wrong operator after a null subject. *)
Theorem C49_assignment_refuted : exists l, Forall message_op l /\ fst (hexec l) = Undef UB_DoubleFree.
Proof. exact assign_double_free. Qed.
Print Assumptions C49_assignment_refuted.
Theorem C49_null_subject_refuted : exists l, Forall message_op l /\ fst (hexec l) = Undef UB_MismatchedDelete.
Proof. exact null_subject_mismatch. Qed.
Print Assumptions C49_null_subject_refuted.

Example C49_example : Forall message_op messages_tour /\ along careful messages_tour /\
  match hexec messages_tour with (Done p, h) => length p = 7 /\ length (h_live h) = 47 | _ => False end.
Proof. split; [ repeat constructor | ]. split; [ exact messages_tour_careful | ]. vm_compute. split; reflexivity. Qed.

(** ** C51 *)

(** C51: no error of memory, and at the end every object (so every cpp client
    and the credential its getCredentials points to) can be read, if
    setCredentials is never called on a cpp client that shares its credential
    with a copy and never given the client's own credential. *)
Theorem C51_no_memory_error_partial : forall l, along careful l -> memory_safe (fst (hexec l)).
Proof. exact run_safe. Qed.
Print Assumptions C51_no_memory_error_partial.
Theorem C51_credentials_readable_partial : forall l p h k, along careful l -> hexec l = (Done p, h) ->
  exists s, fst (observe (get k p) h) = Done s.
Proof. exact readable. Qed.
Print Assumptions C51_credentials_readable_partial.
(** C51 fails: setCredentials on a client frees the credential of its copy. *)
Theorem C51_dangling_refuted : exists l p h k x, hexec l = (Done p, h) /\ get k p = OCpp x /\
  fst (observe (OCpp x) h) = Undef UB_UseAfterFree.
Proof. exact shared_dangling. Qed.
Print Assumptions C51_dangling_refuted.
Theorem C51_double_free_refuted : exists l, fst (hexec l) = Undef UB_DoubleFree /\
  Forall (fun o => match o with VCpp _ | VCred _ _ | VCopy _ | VSetCredentials _ _ => True | _ => False end) l.
Proof. exact shared_double_free. Qed.
Print Assumptions C51_double_free_refuted.

(** Clients 6 and 9 of this program share their credential. *)
Example C51_example : along careful tour /\
  match hexec tour with
  | (Done p, h) =>
      length p = 11 /\
      match get 6 p, get 9 p with OCpp x, OCpp y => po_cred x <> None /\ po_cred x = po_cred y | _, _ => False end /\
      fst (observe (get 9 p) h) =
        Done (SClient true (Some (B "mail.example.org")) None (Some (Some (B "user"), Some (B "secret"), kLogin)))
  | _ => False
  end.
Proof. split; [ exact tour_careful | ]. vm_compute. repeat split; discriminate || reflexivity. Qed.

(** ** C63 *)

(** C63: no error of memory over any history that keeps the rules of
    [careful]; all memory is given back if it keeps those of [tidy_op] too. *)
Theorem C63_no_memory_error_partial : forall l, along careful l ->
  (exists p, fst (hexec l) = Done p) \/ exists u, fst (hexec l) = Undef u /\ mem_error u = false.
Proof. exact run_ends. Qed.
Print Assumptions C63_no_memory_error_partial.
Theorem C63_no_leak_partial : forall l p h, along careful l -> along tidy_op l ->
  hexec l = (Done p, h) -> all_destroyed p -> h_live h = [].
Proof. exact run_clean. Qed.
Print Assumptions C63_no_leak_partial.
(** C63 fails: setServerName(getServerName()) and
    setCredentials( *getCredentials()) read freed memory; assigning to a client
    loses its log; a cpp client never frees its credential. *)
Theorem C63_setServerName_refuted : exists l, fst (hexec l) = Undef UB_UseAfterFree /\
  l = [VBase (ACaller (B "mail")); VSetServer 0 (AGetter 0 0)].
Proof. exact setServerName_alias. Qed.
Print Assumptions C63_setServerName_refuted.
Theorem C63_setCredentials_refuted : exists l, fst (hexec l) = Undef UB_UseAfterFree /\
  l = [VBase (ACaller (B "mail")); new_cred_op; VSetCredentials 0 (KObject 1); VSetCredentials 0 (KOfClient 0)].
Proof. exact setCredentials_alias. Qed.
Print Assumptions C63_setCredentials_refuted.
Theorem C63_assignment_refuted : exists l p h, along careful l /\ hexec l = (Done p, h) /\ all_destroyed p /\ h_live h <> [].
Proof. exact assign_leaks. Qed.
Print Assumptions C63_assignment_refuted.
(** C63 fails: a connection loses memory if the server announces its mechanisms
    after the first line of its answer to EHLO. *)
Theorem C63_ehlo_refuted : exists l p h, along careful l /\ hexec l = (Done p, h) /\ all_destroyed p /\ length (h_live h) = 1 /\
  l = [VBase (ACaller (B "mail")); VTalk 0 (TAuth second_line); VDestroy 0].
Proof. exact ehlo_leaks. Qed.
Print Assumptions C63_ehlo_refuted.
Theorem C63_cpp_refuted : exists l p h, along careful l /\ hexec l = (Done p, h) /\ all_destroyed p /\ h_live h <> [].
Proof. exact cpp_leaks. Qed.
Print Assumptions C63_cpp_refuted.

Example C63_example : along careful whole_life /\ along tidy_op whole_life /\
  match hexec whole_life with (Done p, h) => length p = 11 /\ all_destroyed p | _ => False end.
Proof.
  split; [ exact whole_life_careful | ]. split; [ exact whole_life_tidy | ].
  vm_compute. split; [ reflexivity | ]. intros i. do 12 (destruct i as [ | i]; [ reflexivity | ]). reflexivity.
Qed.

(** ** C64 *)

(** C64: an operation leaves every object it does not touch as it was: the
    object itself and everything it shows. *)
Theorem C64_independent_partial : forall l p h o p' h' k, along careful l -> hexec l = (Done p, h) -> careful p o ->
  ~ touches o k -> k < length p ->
  hstep p o h = (Done p', h') \/ (hstep p o h = (Throw, h') /\ p' = p) ->
  get k p' = get k p /\ exists s, fst (observe (get k p) h) = Done s /\ fst (observe (get k p') h') = Done s.
Proof. exact independent. Qed.
Print Assumptions C64_independent_partial.

(** C64 fails for cpp clients: setCredentials on one client destroys the
    credential its copy still shows. *)
Theorem C64_shared_credential_refuted : exists l p h o p' h' k s, along careful l /\ hexec l = (Done p, h) /\
  ~ touches o k /\ k < length p /\ hstep p o h = (Done p', h') /\
  fst (observe (get k p) h) = Done s /\ fst (observe (get k p') h') = Undef UB_UseAfterFree.
Proof. exact shared_changes. Qed.
Print Assumptions C64_shared_credential_refuted.

(** Message 4 keeps its content when address 1 is destroyed; credential 3
    given to client 5 is changed. *)
Example C64_example : along careful tour /\
  match hexec tour with
  | (Done p, h) => careful p (VDestroy 1) /\ ~ touches (VDestroy 1) 4 /\ 4 < length p /\
      careful p (VSetPassword 3 (AGetter 5 0)) /\ ~ touches (VSetPassword 3 (AGetter 5 0)) 5 /\ 5 < length p /\
      get 1 p <> OGone /\ get 4 p <> OGone /\ get 5 p <> OGone
  | _ => False
  end.
Proof. split; [ exact tour_careful | ]. vm_compute. repeat split; discriminate || (repeat constructor). Qed.

(** ** C65 *)

(** C65: a new message shows the sender, the recipients of each kind, the
    subject, the body and the attachments it was given, in their order, after
    every program [l] and even when arguments point into other objects.  A
    null subject or body is shown as the empty text. *)
Theorem C65_constructor : forall l p h f t c d s b a p' h', hexec l = (Done p, h) ->
  hstep p (VMsg f t c d s b a) h = (Done p', h') -> p' <> p ->
  exists m v os ob, p' = p ++ [OMsg m] /\ fst (read_msg m h') = Done v /\
    fst (observe (get f p) h) = Done (SAddr (w_from v)) /\
    Forall2 (fun k x => fst (observe (get k p) h) = Done (SAddr x)) (members t) (shown (w_to v)) /\ w_nto v = arr_count t /\
    Forall2 (fun k x => fst (observe (get k p) h) = Done (SAddr x)) (members c) (shown (w_cc v)) /\ w_ncc v = arr_count c /\
    Forall2 (fun k x => fst (observe (get k p) h) = Done (SAddr x)) (members d) (shown (w_bcc v)) /\ w_nbcc v = arr_count d /\
    Forall2 (fun k x => fst (observe (get k p) h) = Done (SAtt x)) (members a) (shown (w_atts v)) /\ w_natts v = arr_count a /\
    fst (c_read (eval p s) h) = Done os /\ w_subject v = Some (match os with Some x => x | None => [] end) /\
    fst (c_read (eval p b) h) = Done ob /\ w_body v = Some (match ob with Some x => x | None => [] end).
Proof. exact always_shows. Qed.
Print Assumptions C65_constructor.

Example C65_example : along careful start /\
  match hexec start with
  | (Done p, h) =>
      let o := VMsg 1 (AArr [0; 1]) (AArr [1]) (AArr [0]) (AGetter 4 0) (ACaller (B "Again")) (AArr [2; 2]) in
      careful p o /\ match hstep p o h with (Done p', _) => length p' = S (length p) | _ => False end
  | _ => False
  end.
Proof. split; [ unfold start; check | ]. vm_compute. repeat split. Qed.

(** A message with a null subject, and one made from the getters of the first. *)
Example C65_null_example :
  let o := VMsg 1 (AArr [0]) (ANull 0) (ANull 0) ANullptr (ACaller (B "x")) (ANull 0) in
  match hexec (start ++ [o]) with
  | (Done p, h) => ~ careful p o /\
      match hstep p (VMsg 0 (AArr [1; 0]) (ANull 0) (AArr [1]) (AGetter 7 0) (AGetter 7 1) (AArr [2])) h with
      | (Done p', _) => length p' = S (length p)
      | _ => False
      end
  | _ => False
  end.
Proof. vm_compute. split; [|reflexivity]. intros [X _]. now apply X. Qed.
