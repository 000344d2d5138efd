(** C104: the memory taken by communication logs. *)

From Coq Require Import Ascii String List NArith ZArith Bool Lia.
From Verif Require Import Base ModelAddress ModelAttachment ModelMessage ModelReply ModelErrors ModelState ModelClient ModelWorld
  SpecThrow Samples ProofLogSize PropsThrow.
Import ListNotations.
Open Scope Z_scope.

(** C104: in every program the process survives, whatever the server and the
    network do, the log of every client is at most linear in what the program
    passes to the library and in what is received. *)
Theorem C104_log_length : forall T ops e i c, modest T ops e -> survived (fst (run ops (initial_world e))) ->
  get_client (snd (run ops (initial_world e))) i = Some c ->
  (slen (getCommunicationLog c) <= 450 * (T + 100) * (total op_count ops + env_count e) + 25 * total op_size ops + 2 * env_size e)%N.
Proof. exact log_length. Qed.
Print Assumptions C104_log_length.

(** The memory allocated for it is at most 4097 bytes longer than the text, in
    every program. *)
Theorem C104_log_memory : forall ops e i c lg, get_client (snd (run ops (initial_world e))) i = Some c -> c_log c = Some lg ->
  (lg_cap lg <= slen (lg_text lg) + 4097)%N.
Proof. exact log_memory. Qed.
Print Assumptions C104_log_memory.

(** A client that has sent a mail and kept its connection; and one that has sent
    many, whose log has grown. *)
Definition many_mails : list op := [ONew KPlain server 25; OSetBatch 0 true] ++ repeat (OSend 0 hi) 12.
Definition patient : env := wire (hello ++ List.concat (repeat mail_replies 12)).
Example C104_example :
  (exists c, modest 20 refused_calls failing /\ survived (fst (run refused_calls (initial_world failing))) /\
    get_client (snd (run refused_calls (initial_world failing))) 0 = Some c /\ (400 < slen (getCommunicationLog c))%N) /\
  exists c lg, get_client (snd (run many_mails (initial_world patient))) 0 = Some c /\ c_log c = Some lg /\
    (4096 < slen (lg_text lg))%N /\ (slen (lg_text lg) + 1000 < lg_cap lg)%N.
Proof.
  split.
  - eexists. split.
    { split; [intros z; apply N.leb_le; reflexivity|]. split; [intros z; apply N.leb_le; reflexivity|]. split; [|apply N.leb_le; vm_compute; reflexivity].
      apply Forall_forall. repeat (apply Forall_cons; [apply N.leb_le; vm_compute; reflexivity|]). apply Forall_nil. }
    split. { unfold survived. vm_compute. repeat (apply Forall_cons; [solve [right; reflexivity | left; eexists; reflexivity]|]). apply Forall_nil. }
    split; [vm_compute; reflexivity|vm_compute; reflexivity].
  - eexists. eexists. split; [vm_compute; reflexivity|]. split; [reflexivity|]. split; vm_compute; reflexivity.
Qed.
