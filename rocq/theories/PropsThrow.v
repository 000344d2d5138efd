(** Exceptions (C102). *)

From Coq Require Import Ascii String List NArith ZArith Bool.
From Verif Require Import Base ModelUtil ModelAddress ModelMessage ModelState ModelClient ModelWorld
  SpecText SpecThrow Samples ProofThrow2.
Import ListNotations.
Open Scope Z_scope.

(** C102.  Only a constructor or setServerName raises an exception, only because
    the server name is null or blank, and the call has no effect then: nothing is
    created, changed, sent or closed. *)
Theorem C102_only_bad_names : forall T ops o e w',
  let w := snd (run ops (initial_world e)) in
  modest T (ops ++ [o]) e -> survived (fst (run ops (initial_world e))) -> legal w o ->
  step o w = (Throw, w') -> w' = w /\ unacceptable o.
Proof. exact only_unacceptable. Qed.
Print Assumptions C102_only_bad_names.

(** In particular sendMail, copies, moves, the other setters and the destructors
    raise none, whatever the server and the network do. *)
Theorem C102_other_calls : forall T ops o e,
  (forall k p port, o <> ONew k p port) -> (forall i p, o <> OSetServer i p) ->
  let w := snd (run ops (initial_world e)) in
  modest T (ops ++ [o]) e -> survived (fst (run ops (initial_world e))) -> legal w o ->
  fst (step o w) <> Throw.
Proof. exact quiet_calls. Qed.
Print Assumptions C102_other_calls.

(** Conversely a null or blank name is always refused with an exception (if its
    outermost visible characters are ASCII: the test of a negative character has
    no defined meaning, see C11). *)
Theorem C102_bad_names : forall o w, legal w o -> unacceptable o ->
  (forall k p port, o = ONew k p port -> outer_ascii p) -> (forall i p, o = OSetServer i p -> outer_ascii p) ->
  step o w = (Throw, w).
Proof. exact unacceptable_thrown. Qed.
Print Assumptions C102_bad_names.

(** A program with two refused calls.  The network fails
    when the client is destroyed: QUIT fails twice. *)
Definition refused_calls : list op :=
  [ONew KPlain None 25; ONew KPlain server 25; OSetServer 0 (Some (B "  ")); OSetBatch 0 true; OSend 0 hi].
Definition failing : env := network [SkFd 3] (hello ++ mail_replies) [] (repeat WFull 10 ++ [WErr 32; WErr 32]) [] [].
Example C102_example :
  result (refused_calls ++ [ODestroy 0]) failing = [Throw; Done 0; Throw; Done 0; Done 0; Done 0] /\
  modest 20 (refused_calls ++ [ODestroy 0]) failing /\
  survived (fst (run refused_calls (initial_world failing))) /\
  legal (snd (run refused_calls (initial_world failing))) (ODestroy 0) /\
  unacceptable (OSetServer 0 (Some (B "  "))) /\ ~ unacceptable (OSetServer 0 server).
Proof.
  split; [vm_compute; reflexivity|]. split.
  { split; [intros z; apply N.leb_le; reflexivity|]. split; [intros z; apply N.leb_le; reflexivity|]. split; [|apply N.leb_le; vm_compute; reflexivity].
    apply Forall_forall. repeat (apply Forall_cons; [apply N.leb_le; vm_compute; reflexivity|]). apply Forall_nil. }
  split. { unfold survived. vm_compute. repeat (apply Forall_cons; [solve [right; reflexivity | left; eexists; reflexivity]|]). apply Forall_nil. }
  split. { eexists. vm_compute. reflexivity. }
  split.
  - intros (s & E & c & I & W). injection E as <-. apply W. vm_compute in I. vm_compute. destruct I as [<-|[<-|[]]]; auto.
  - intros U. apply U. exists (B "smtp.example.com"). split; [reflexivity|]. exists (ascii_of_nat 115). split; [vm_compute; auto|]. vm_compute. intuition discriminate.
Qed.
