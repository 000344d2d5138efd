(** The texts of errors (C106). *)

From Coq Require Import Ascii String List NArith ZArith Bool.
From Verif Require Import Base ModelUtil ModelAddress ModelMessage ModelState ModelClient ModelWorld
  SpecText SpecThrow SpecTexts Samples ProofTexts2.
Import ListNotations.
Open Scope Z_scope.

(** C106.  A program has the same results, and does the same on the network,
    whatever texts the system and OpenSSL have for their errors: they are only
    seen in the logs. *)
Theorem C106_texts_only_in_log : forall T ops e f g, modest T ops e -> modest T ops (texts f g e) ->
  let a := run ops (initial_world e) in let b := run ops (initial_world (texts f g e)) in
  fst a = fst b /\ w_trace (snd a) = w_trace (snd b) /\
  forall i, match get_client (snd a) i, get_client (snd b) i with
            | Some c, Some d => same_but_log c d
            | None, None => True
            | _, _ => False
            end.
Proof. exact texts_irrelevant. Qed.
Print Assumptions C106_texts_only_in_log.

(** A client is told that a certificate is bad, another gets no socket, and the
    first then delivers its mail: the logs are in two languages. *)
Definition bad_cert : tls_res := mkTls true true true true true true 18 true 0.
Definition three_mails : list op :=
  [ONew KOpp server 587; OSend 0 hi; ONew KPlain server 25; OSend 1 hi; OSetSelfSigned 0 true; OSend 0 hi; ODestroy 1].
Definition troubled : env :=
  network [SkFd 3; SkErr 24; SkFd 4] (tls_hello ++ tls_hello) (tls_ident ++ mail_replies) [] [] [bad_cert; bad_cert].
Definition french : env := texts (fun _ => B "erreur") (fun _ => B "mauvais certificat") troubled.
Example C106_example : modest 20 three_mails troubled /\ modest 20 three_mails french /\
  result three_mails troubled = map (fun n => Done n) [0; -58; 0; -1; 0; 0; 0] /\
  (forall ops, ops = firstn 2 three_mails -> forall c d, get_client (snd (run ops (initial_world troubled))) 0 = Some c ->
     get_client (snd (run ops (initial_world french))) 0 = Some d -> getCommunicationLog c <> getCommunicationLog d).
Proof.
  assert (M : forall f g, (forall z, slen (f z) <= 20)%N -> (forall z, slen (g z) <= 20)%N -> modest 20 three_mails (texts f g troubled)).
  { intros f g F G. split; [exact F|]. split; [exact G|]. split; [|apply N.leb_le; vm_compute; reflexivity].
    apply Forall_forall. repeat (apply Forall_cons; [apply N.leb_le; vm_compute; reflexivity|]). apply Forall_nil. }
  split; [exact (M (fun _ => B "error") (fun _ => B "bad certificate") ltac:(intros z; apply N.leb_le; reflexivity) ltac:(intros z; apply N.leb_le; reflexivity))|].
  split; [apply M; intros z; apply N.leb_le; reflexivity|].
  split; [vm_compute; reflexivity|].
  intros ops -> c d X Y. vm_compute in X, Y. injection X as <-. injection Y as <-. vm_compute. discriminate.
Qed.
