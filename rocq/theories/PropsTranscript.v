(** C37 and C68: the communication log as a transcript. *)

From Coq Require Import Ascii String List NArith ZArith Bool.
From Verif Require Import Base ModelUtil ModelAddress ModelAttachment ModelMessage ModelState ModelClient
  ModelWorld SpecMime SpecDialogue SpecAuth SpecSafety SpecTranscript ProofTranscript Samples.
Import ListNotations.
Open Scope Z_scope.

(** C68: sending a mail adds entries to the log of the connection (to an empty
    log when it opens one).  Merged with the events of the call, the entries
    are a transcript in the sense of SpecTranscript.  The logs of the other
    clients do not change. *)
Theorem C68_transcript : forall ops e i c m,
  let w := snd (run ops (initial_world e)) in
  let r := step (OSend i m) w in
  get_client w i = Some c -> exists l,
  w_trace (snd r) = w_trace w ++ happened l /\
  all_logs (snd r) = replaced (all_logs w) i (Some ((if c_conn c then getCommunicationLog c else []) ++ log_text (entries l))) /\
  account c (w_env w) m (fst r) l.
Proof. exact world_account. Qed.
Print Assumptions C68_transcript.

(** C37: the other operations only carry logs from one client to another. *)
Theorem C37_other_operations : forall o w, ~ sends o ->
  all_logs (snd (step o w)) = carried o (fst (step o w)) (all_logs w).
Proof. exact other_logs. Qed.
Print Assumptions C37_other_operations.
Example C37_other_example :
  all_logs (snd (run [ONew KPlain server 25; OSend 0 hi; OCopy 0; OMove 0; ODestroy 1] (initial_world (wire (told "554 no"))))) =
  [Some []; None; Some (log_text [(B "c", B "Trying to connect to smtp.example.com on port 25"); (B "s", B "554 no" ++ [CR])])].
Proof. vm_compute. reflexivity. Qed.

(** The transcript of a refused connection, and its log. *)
Definition lone : client := mkClient KPlain false server 25 false None 0 None 5 0 None None 0 false false None None false.
Definition refusal : list item :=
  [Did (EvSocket (SkFd 3)); Did (EvResolve (B "smtp.example.com") true); Did (EvFcntl 3 None true); Did (EvFcntl 3 (Some true) true);
   client_says (B "Trying to connect to smtp.example.com on port 25"); Did (EvConnect 3 25 true);
   Did (EvFcntl 3 None true); Did (EvFcntl 3 (Some false) true);
   Did (EvRecv 3 (RData (B "554 no" ++ CRLF))); server_says (B "554 no" ++ [CR])].
Example C68_refusal_example :
  get_client (snd (run [ONew KPlain server 25] (initial_world (wire (told "554 no"))))) 0 = Some lone /\
  events [ONew KPlain server 25; OSend 0 hi] (wire (told "554 no")) = happened refusal /\
  all_logs (snd (run [ONew KPlain server 25; OSend 0 hi] (initial_world (wire (told "554 no"))))) = [Some (log_text (entries refusal))] /\
  transcript lone (wire (told "554 no")) hi refusal.
Proof.
  split; [reflexivity|]. split; [vm_compute; reflexivity|]. split; [vm_compute; reflexivity|].
  assert (Q : forall l evs, Forall quiet evs -> transcript lone (wire (told "554 no")) hi l -> transcript lone (wire (told "554 no")) hi (l ++ map Did evs)).
  { intros l evs H. revert l. induction H as [|ev evs Hq _ IH]; intros l T; [cbn; now rewrite app_nil_r|].
    cbn [map]. change (Did ev :: map Did evs) with ([Did ev] ++ map Did evs). rewrite app_assoc. apply IH. apply t_piece; [exact T|now apply p_quiet]. }
  change refusal with (((([] ++ map Did [EvSocket (SkFd 3); EvResolve (B "smtp.example.com") true; EvFcntl 3 None true; EvFcntl 3 (Some true) true])
    ++ [client_says (B "Trying to connect to " ++ B "smtp.example.com" ++ B " on port " ++ B "25"); Did (EvConnect 3 25 true)])
    ++ map Did [EvFcntl 3 None true; EvFcntl 3 (Some false) true])
    ++ (map Did ([] ++ [EvRecv 3 (RData (B "554 no" ++ CRLF))]) ++ [server_says (removelast (B "554 no" ++ CRLF))] ++ [])).
  apply t_piece.
  - apply Q; [repeat constructor|]. apply t_piece; [apply Q; [repeat constructor|constructor]|]. exact (p_connect lone _ hi _ (B "smtp.example.com") 3 25 true eq_refl).
  - assert (P := fun W R => p_greeting lone (wire (told "554 no")) hi (([] ++ map Did [EvSocket (SkFd 3); EvResolve (B "smtp.example.com") true; EvFcntl 3 None true; EvFcntl 3 (Some true) true])
    ++ [client_says (B "Trying to connect to " ++ B "smtp.example.com" ++ B " on port " ++ B "25"); Did (EvConnect 3 25 true)]
    ++ map Did [EvFcntl 3 None true; EvFcntl 3 (Some false) true]) [] (EvRecv 3 (RData (B "554 no" ++ CRLF))) (B "554 no" ++ CRLF) eq_refl W R).
    apply P; clear.
    + intros ev H [d W]. cbn in H. repeat (destruct H as [H|H]; [subst ev; destruct W as [(? & ? & X)|(? & ? & X)]; discriminate X|]). exact H.
    + split; [intros ev []|]. split; [left; eexists; eexists; reflexivity|]. split; [reflexivity|discriminate].
Qed.

(** Logs that are not faithful are not transcripts: a reply that was not
    received, a command that was sent without being noted, one that is noted
    but was not sent. *)
Example C68_invented_reply : forall c e m d, ~ transcript c e m [server_says d].
Proof. exact no_invented_reply. Qed.
Example C68_silent_command : forall e m fd d r, ~ transcript lone e m [Did (EvSend fd d r)].
Proof. exact (fun e m fd d r => no_silent_write lone e m (EvSend fd d r) eq_refl (or_introl (ex_intro _ fd (ex_intro _ d (ex_intro _ r eq_refl))))). Qed.
Example C68_unsent_command : forall e m a, (forall er, e_strerror e er <> rcpt_line a) -> ~ transcript lone e m [client_says (rcpt_line a)].
Proof. exact (fun e m a => no_unsent_command lone e m a eq_refl). Qed.
