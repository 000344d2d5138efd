(** What mails say (C108). *)

From Coq Require Import Ascii String List NArith ZArith Bool.
From Verif Require Import Base ModelUtil ModelAddress ModelAttachment ModelMessage ModelState ModelClient ModelWorld
  SpecText SpecThrow SpecFate Samples ProofFate2.
Import ListNotations.
Open Scope Z_scope.

(** C108.  Two programs that differ only in what their mails say - addresses,
    subjects, bodies, attached files - get the same results from the same
    replies, as long as no write fails.  They do the same on the network except
    for what they write, and leave the same clients except for the logs. *)
Theorem C108_contents_do_not_decide : forall T ops1 ops2 e, lossless e -> Forall2 same_form ops1 ops2 -> modest T ops1 e -> modest T ops2 e ->
  let a := run ops1 (initial_world e) in let b := run ops2 (initial_world e) in
  Forall2 same_fate (fst a) (fst b) /\ filter not_written (w_trace (snd a)) = filter not_written (w_trace (snd b)) /\
  forall i, match get_client (snd a) i, get_client (snd b) i with
            | Some c, Some d => same_besides_log c d
            | None, None => True
            | _, _ => False
            end.
Proof. exact contents_irrelevant. Qed.
Print Assumptions C108_contents_do_not_decide.

(** A client is refused a recipient, keeps its connection, and then delivers; what
    is said is short in one program, long in the other. *)
Definition long : message := letter (concat (repeat (B "hello there, ") 50)) (ANull 0).
Definition two_letters (m : message) : list op :=
  [ONew KPlain server 25; OSetBatch 0 true; OSend 0 m; OSend 0 m; ODestroy 0].
Definition picky : env := network [SkFd 3] (hello ++ said "250 ok" ++ said "550 no" ++ mail_replies) [] [] [] [].
Example C108_example : lossless picky /\ Forall2 same_form (two_letters hi) (two_letters long) /\
  modest 20 (two_letters hi) picky /\ modest 20 (two_letters long) picky /\
  nth 3 (result (two_letters hi) picky) Throw = Done 0 /\ result (two_letters long) picky = result (two_letters hi) picky /\
  events (two_letters hi) picky <> events (two_letters long) picky.
Proof.
  assert (M : forall m, (forall z, slen (e_strerror picky z) <= 20)%N -> m = hi \/ m = long -> modest 20 (two_letters m) picky).
  { intros m F G. split; [exact F|]. split; [intros z; apply N.leb_le; reflexivity|].
    destruct G as [->| ->]; (split; [|apply N.leb_le; vm_compute; reflexivity]); apply Forall_forall; repeat (apply Forall_cons; [apply N.leb_le; vm_compute; reflexivity|]); apply Forall_nil. }
  split; [split; reflexivity|]. split; [repeat constructor|].
  split; [apply M; [intros z; apply N.leb_le; reflexivity|auto]|]. split; [apply M; [intros z; apply N.leb_le; reflexivity|auto]|].
  split; [vm_compute; reflexivity|]. split; [vm_compute; reflexivity|]. vm_compute. discriminate.
Qed.
