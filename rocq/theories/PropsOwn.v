(** Ownership of connections over histories of client objects (C41, C42) and
    copies and moves of clients (C46). *)

From Coq Require Import Ascii String List NArith ZArith Bool.
From Verif Require Import Base ModelUtil ModelAddress ModelAttachment ModelMessage ModelReply ModelState ModelClient ModelWorld
  SpecOwn Samples ProofOwn ProofOwn2 ProofOwn3.
Import ListNotations.
Open Scope Z_scope.

(** ** C41 *)

(** C41: whatever a program does with its clients, only open sockets are
    closed, no two clients hold the same socket, and the socket a client holds
    is open. *)
Theorem C41_sockets : forall e ops, fresh sockets (w_trace (snd (run ops (initial_world e)))) ->
  let w := snd (run ops (initial_world e)) in
  releases_open sockets (w_trace w) /\ held_apart sockets w /\ held_open sockets w.
Proof. exact own_sockets. Qed.
Print Assumptions C41_sockets.
(** C41, the same for the TLS objects. *)
Theorem C41_contexts : forall e ops, let w := snd (run ops (initial_world e)) in
  releases_open contexts (w_trace w) /\ held_apart contexts w /\ held_open contexts w.
Proof. exact own_contexts. Qed.
Print Assumptions C41_contexts.
Theorem C41_bios : forall e ops, let w := snd (run ops (initial_world e)) in
  releases_open bios (w_trace w) /\ held_apart bios w /\ held_open bios w.
Proof. exact own_bios. Qed.
Print Assumptions C41_bios.

(** A program that shares out a batch connection and destroys everything. *)
Definition sharing : list op :=
  [ONew KPlain server 25; OSetBatch 0 true; OSend 0 hi; OCopy 0; OSend 1 hi; OMove 0; OSend 2 hi].
Definition closing : list op := [ODestroy 0; ODestroy 1; ODestroy 2].
Definition two_sessions : env := wire (hello ++ mail_replies ++ hello ++ mail_replies ++ mail_replies).

Fixpoint fresh_check (R : resource) (open : list Z) (t : list event) : bool :=
  match t with
  | [] => true
  | ev :: r => forallb (fun x => negb (existsb (Z.eqb x) open)) (acquires R ev) && fresh_check R (open_after R open ev) r
  end.
Lemma fresh_checked : forall R t, fresh_check R [] t = true -> fresh R t.
Proof.
  intros R t H t1 ev t2 x E I O.
  assert (X : forall t1 open t, fresh_check R open t = true -> t = t1 ++ ev :: t2 -> ~ In x (fold_left (open_after R) t1 open)).
  { clear H t1 E O. induction t1 as [|e1 t1 IH]; intros open u H E; subst u; cbn in H; apply andb_prop in H; destruct H as [H1 H2].
    - intros J. rewrite forallb_forall in H1. specialize (H1 x I). apply negb_true_iff in H1.
      assert (existsb (Z.eqb x) open = true) by (apply existsb_exists; exists x; split; [exact J|apply Z.eqb_refl]). congruence.
    - cbn. eapply IH; [exact H2|reflexivity]. }
  exact (X t1 [] t H E O).
Qed.

Example C41_example : fresh sockets (events sharing two_sessions) /\
  result sharing two_sessions = repeat (Done 0) 7 /\ open_in sockets (events sharing two_sessions) = [4; 3] /\
  map (fun i => option_map c_sock (get_client (snd (run sharing (initial_world two_sessions))) i)) [0; 1; 2]%nat = [Some 0; Some 4; Some 3].
Proof. split; [apply fresh_checked; vm_compute; reflexivity|]. vm_compute. repeat split; reflexivity. Qed.

(** ** C42 *)

(** C42: when all clients have been destroyed, no descriptor other than 0 is
    still open, if no mail was sent through a client whose last connection
    attempt failed and no client holding a socket was assigned to.  Missing:
    those two uses, which lose a descriptor, and descriptor 0, which the
    library takes for "no socket". *)
Theorem C42_no_leak_partial : forall e ops, careful ops (initial_world e) -> destroyed_ok ops (fst (run ops (initial_world e))) ->
  (forall i, get_client (snd (run ops (initial_world e))) i = None) ->
  forall x, In x (open_in sockets (w_trace (snd (run ops (initial_world e))))) -> x = 0.
Proof. exact no_leak_all. Qed.
Print Assumptions C42_no_leak_partial.
(** C42: the same condition, seen at any point of the program: every open
    descriptor belongs to a client. *)
Theorem C42_nothing_lost_partial : forall e ops, careful ops (initial_world e) -> destroyed_ok ops (fst (run ops (initial_world e))) ->
  nothing_lost (snd (run ops (initial_world e))).
Proof. exact no_leak. Qed.
Print Assumptions C42_nothing_lost_partial.
(** C42 for programs without assignments in which every mail is accepted. *)
Theorem C42_all_sent_partial : forall e ops,
  (forall i j, ~ In (OCopyAssign i j) ops) -> (forall i j, ~ In (OMoveAssign i j) ops) ->
  all_sent ops (fst (run ops (initial_world e))) -> destroyed_ok ops (fst (run ops (initial_world e))) ->
  (forall i, get_client (snd (run ops (initial_world e))) i = None) ->
  forall x, In x (open_in sockets (w_trace (snd (run ops (initial_world e))))) -> x = 0.
Proof. exact no_leak_sent_all. Qed.
Print Assumptions C42_all_sent_partial.

(** The program [sharing], followed by the destructors. *)
Definition whole : list op := sharing ++ closing.
Example C42_example : result whole two_sessions = repeat (Done 0) 10 /\
  all_sent whole (result whole two_sessions) /\ destroyed_ok whole (result whole two_sessions) /\
  (forall i j, ~ In (OCopyAssign i j) whole) /\ (forall i j, ~ In (OMoveAssign i j) whole) /\
  (forall i, get_client (snd (run whole (initial_world two_sessions))) i = None) /\
  acquires sockets (nth 1 (events whole two_sessions) (EvSleep 0)) = [] /\
  open_in sockets (events whole two_sessions) = [].
Proof.
  assert (R : result whole two_sessions = repeat (Done 0) 10) by (vm_compute; reflexivity).
  split; [exact R|]. rewrite R.
  assert (X : forall k (x : outcome Z), nth_error (repeat (Done 0) 10) k = Some x -> x = Done 0).
  { intros k x H. apply nth_error_In in H. apply repeat_spec in H. exact H. }
  split; [intros k i m x _ H; exact (X k x H)|]. split; [intros k i x _ H; exact (X k x H)|].
  split; [intros i j H; cbn in H; repeat destruct H as [H|H]; try discriminate H; contradiction|].
  split; [intros i j H; cbn in H; repeat destruct H as [H|H]; try discriminate H; contradiction|].
  split; [|split; vm_compute; reflexivity].
  assert (W : w_clients (snd (run whole (initial_world two_sessions))) = [None; None; None]) by (vm_compute; reflexivity).
  intros i. unfold get_client. rewrite W. destruct i as [|[|[|i]]]; try reflexivity. destruct i; reflexivity.
Qed.

(** C42 fails: a second attempt after a failed one, and an assignment to a
    connected client, lose a descriptor. *)
Theorem C42_retry_refuted : exists e ops, result ops e = [Done 0; Done 421; Done 421; Done 0] /\
  fresh sockets (events ops e) /\ w_clients (snd (run ops (initial_world e))) = [None] /\ In 3 (open_in sockets (events ops e)).
Proof.
  exists (wire (told "421 busy" ++ told "421 busy")), [ONew KPlain server 25; OSend 0 hi; OSend 0 hi; ODestroy 0].
  split; [vm_compute; reflexivity|]. split; [apply fresh_checked; vm_compute; reflexivity|].
  split; [vm_compute; reflexivity|]. vm_compute. left. reflexivity.
Qed.
Print Assumptions C42_retry_refuted.
Theorem C42_copy_assign_refuted : exists e ops, result ops e = repeat (Done 0) 7 /\
  fresh sockets (events ops e) /\ w_clients (snd (run ops (initial_world e))) = [None; None] /\ In 3 (open_in sockets (events ops e)).
Proof.
  exists (wire (hello ++ mail_replies)),
    [ONew KPlain server 25; OSetBatch 0 true; OSend 0 hi; ONew KPlain server 25; OCopyAssign 0 1; ODestroy 0; ODestroy 1].
  split; [vm_compute; reflexivity|]. split; [apply fresh_checked; vm_compute; reflexivity|].
  split; [vm_compute; reflexivity|]. vm_compute. left. reflexivity.
Qed.
Print Assumptions C42_copy_assign_refuted.
Theorem C42_move_assign_refuted : exists e ops, result ops e = repeat (Done 0) 7 /\
  fresh sockets (events ops e) /\ w_clients (snd (run ops (initial_world e))) = [None; None] /\ In 3 (open_in sockets (events ops e)).
Proof.
  exists (wire (hello ++ mail_replies)),
    [ONew KPlain server 25; OSetBatch 0 true; OSend 0 hi; ONew KPlain server 25; OMoveAssign 0 1; ODestroy 0; ODestroy 1].
  split; [vm_compute; reflexivity|]. split; [apply fresh_checked; vm_compute; reflexivity|].
  split; [vm_compute; reflexivity|]. vm_compute. left. reflexivity.
Qed.
Print Assumptions C42_move_assign_refuted.

(** ** C46 *)

(** C46, copy construction: a new, disconnected client with the same settings
    and results; every existing client, the source included, is unchanged. *)
Theorem C46_copy : forall i w w', step (OCopy i) w = (Done 0, w') ->
  exists c c', get_client w i = Some c /\ get_client w' (next_client w) = Some c' /\
    same_settings c c' /\ same_results c c' /\ disconnected c' /\
    others_same [next_client w] w w' /\ no_effect w w'.
Proof. exact copy_step. Qed.
Print Assumptions C46_copy.
(** C46, copy assignment between two clients of the same class. *)
Theorem C46_copy_assign : forall i j w w', i <> j -> step (OCopyAssign i j) w = (Done 0, w') ->
  exists c c', get_client w j = Some c /\ get_client w' i = Some c' /\
    same_settings c c' /\ same_results c c' /\ disconnected c' /\ others_same [i] w w' /\ no_effect w w'.
Proof. exact copy_assign_step. Qed.
Print Assumptions C46_copy_assign.
(** C46, move construction: the connection goes to the new client, the source
    is empty. *)
Theorem C46_move : forall i w w', step (OMove i) w = (Done 0, w') ->
  exists c c' e, get_client w i = Some c /\ get_client w' (next_client w) = Some c' /\ get_client w' i = Some e /\
    same_settings c c' /\ same_results c c' /\ same_connection c c' /\ emptied e /\
    others_same [i; next_client w] w w' /\ no_effect w w'.
Proof. exact move_step. Qed.
Print Assumptions C46_move.
(** C46, move assignment. *)
Theorem C46_move_assign : forall i j w w', i <> j -> step (OMoveAssign i j) w = (Done 0, w') ->
  exists c c' e, get_client w j = Some c /\ get_client w' i = Some c' /\ get_client w' j = Some e /\
    same_settings c c' /\ same_results c c' /\ same_connection c c' /\ emptied e /\ others_same [i; j] w w' /\ no_effect w w'.
Proof. exact move_assign_step. Qed.
Print Assumptions C46_move_assign.
(** C46: assigning a client to itself changes nothing. *)
Theorem C46_self : forall i w c, get_client w i = Some c ->
  step (OCopyAssign i i) w = (Done 0, w) /\ step (OMoveAssign i i) w = (Done 0, w).
Proof. exact self_assign_step. Qed.
Print Assumptions C46_self.
(** C46: a move always succeeds, a copy succeeds when the source has not been
    moved from. *)
Theorem C46_copy_succeeds_partial : forall i w c, get_client w i = Some c -> c_server c <> None -> fst (step (OCopy i) w) = Done 0.
Proof. exact copy_succeeds. Qed.
Print Assumptions C46_copy_succeeds_partial.
Theorem C46_copy_assign_succeeds_partial : forall i j w d c, get_client w i = Some d -> get_client w j = Some c -> c_kind d = c_kind c ->
  c_server c <> None -> fst (step (OCopyAssign i j) w) = Done 0.
Proof. exact copy_assign_succeeds. Qed.
Print Assumptions C46_copy_assign_succeeds_partial.
Theorem C46_move_succeeds : forall i w c, get_client w i = Some c -> fst (step (OMove i) w) = Done 0.
Proof. exact move_succeeds. Qed.
Print Assumptions C46_move_succeeds.
Theorem C46_move_assign_succeeds : forall i j w d c, get_client w i = Some d -> get_client w j = Some c -> c_kind d = c_kind c ->
  fst (step (OMoveAssign i j) w) = Done 0.
Proof. exact move_assign_succeeds. Qed.
Print Assumptions C46_move_assign_succeeds.

(** A connected, fully configured client, copied and moved. *)
Definition configured : list op :=
  [ONew KPlain server 25; OSetBatch 0 true; OSetTimeout 0 7; OSetCred 0 joe_cred; OSetKeep 0 true;
   ONew KPlain (Some (B "other")) 26].
Definition login_wire : env := wire (told "220 ready" ++ tls_ident ++ said "235 ok" ++ mail_replies).
Definition configured_world : world := snd (run (configured ++ [OSend 0 hi]) (initial_world login_wire)).
Example C46_example : exists c c', result (configured ++ [OSend 0 hi]) login_wire = repeat (Done 0) 7 /\
  get_client configured_world 0 = Some c /\ c_conn c = true /\ c_sock c = 3 /\ c_timeout c = 7%N /\ c_cred c = Some joe_cred /\
  fst (step (OCopy 0) configured_world) = Done 0 /\ fst (step (OCopyAssign 1 0) configured_world) = Done 0 /\
  fst (step (OMove 0) configured_world) = Done 0 /\ fst (step (OMoveAssign 1 0) configured_world) = Done 0 /\
  get_client configured_world 1 = Some c' /\ c_port c' = 26%N.
Proof. eexists _, _. split; [vm_compute; reflexivity|]. split; [vm_compute; reflexivity|]. vm_compute. repeat split; reflexivity. Qed.

(** C46 fails for a client that has been moved from: copying it dereferences a
    null pointer. *)
Theorem C46_moved_from_refuted : exists e ops, result ops e = [Done 0; Done 0; Undef (UB_NullDeref PServer)] /\
  ops = [ONew KPlain server 25; OMove 0; OCopy 0].
Proof. eexists (wire []), _. split; [|reflexivity]. vm_compute. reflexivity. Qed.
Print Assumptions C46_moved_from_refuted.
