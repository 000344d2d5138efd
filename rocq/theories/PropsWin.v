(** C74-C79: the Windows build. *)

From Coq Require Import Ascii String List NArith ZArith Bool.
From Verif Require Import Base ModelAddress ModelAttachment ModelMessage ModelReply ModelErrors ModelState ModelClient
  ModelWorld ModelWin SpecWin ProofWin3 ProofWinRef5 ProofWinEv ProofWinFail Samples.
Import ListNotations.
Open Scope Z_scope.

(** C74: for every program and every network, if no connection attempt of the
    Windows build fails and no call that only Windows makes, the POSIX build in
    the same network gives the same results, leaves the clients in the same
    state and makes the same socket, TLS and waiting calls with the same data in
    the same order. *)
Theorem C74_same_dialogue : forall ops e x outs w,
  wrun ops (initial_wworld e x) = (outs, w) -> Forall smooth (ww_trace w) ->
  exists f, let '(outs', w') := run ops (initial_world (posix_env f e)) in
  outs' = outs /\ w_clients w' = w_clients (ww w) /\ talk (w_trace w') = wtalk (ww_trace w).
Proof. exact same_dialogue. Qed.
Print Assumptions C74_same_dialogue.

(** A Windows system on which everything succeeds. *)
Definition windows : wenv := mkWenv [] [] [] [] [] (fun _ => Some (B "error")).

(** The hypotheses are met: two messages over one authenticated TLS connection,
    the second one refused. *)
Definition win_program : list op :=
  [ONew KOpp server 587; OSetBatch 0 true; OSetCred 0 joe_cred; OSend 0 hi; OSend 0 two_recipients; ODestroy 0].
Definition win_network : env :=
  tls_wire tls_hello (tls_ident ++ told "235 ok" ++ told "250 ok" ++ told "250 ok" ++ told "354 go" ++ told "250 queued"
    ++ told "250 ok" ++ told "250 ok" ++ told "550 no such user") [good_tls].
Definition smoothb (ev : wevent) : bool :=
  match ev with
  | WStartup r | WCleanup r | WAddr _ _ r => r =? 0
  | WOpenStore r => match r with None => true | _ => false end
  | WTooLong _ => false
  | WSock (EvSocket (SkErr _)) => false
  | WSock (EvConnect _ _ ok) => ok
  | _ => true
  end.
Lemma smoothb_ok t : forallb smoothb t = true -> Forall smooth t.
Proof.
  intros H. apply Forall_forall. intros ev I. apply (proj1 (forallb_forall _ _) H) in I.
  destruct ev as [[]| | | | | | | | |]; cbn in *; try exact Logic.I; try discriminate; try (now apply Z.eqb_eq); try assumption.
  - now destruct r.
  - now destruct r.
Qed.
Example C74_example : let '(outs, w) := wrun win_program (initial_wworld win_network windows) in
  outs = [Done 0; Done 0; Done 0; Done 0; Done 550; Done 0] /\ Forall smooth (ww_trace w) /\
  (20 <? List.length (wtalk (ww_trace w)))%nat = true /\
  In (EvPuts 1 (B "MAIL FROM: <joe@example.com>" ++ CRLF) WFull) (wtalk (ww_trace w)).
Proof.
  destruct (wrun win_program (initial_wworld win_network windows)) as [outs w] eqn:E. vm_compute in E. injection E as <- <-.
  split; [reflexivity|]. split; [apply smoothb_ok; vm_compute; reflexivity|]. vm_compute.
  split; [reflexivity|]. repeat (try (left; reflexivity); right).
Qed.

(** ** C75: WSACleanup is called only while WinSock is started *)

Theorem C75_release_needs_reference : forall ops e x p r s,
  ww_trace (snd (wrun ops (initial_wworld e x))) = p ++ WCleanup r :: s -> (cleanups p < startups p)%nat.
Proof. exact release_needs_reference. Qed.
Print Assumptions C75_release_needs_reference.

Definition wtrace (ops : list op) (e : env) (x : wenv) : list wevent := ww_trace (snd (wrun ops (initial_wworld e x))).
Definition wresults (ops : list op) (e : env) (x : wenv) : list (outcome Z) := fst (wrun ops (initial_wworld e x)).

(** Two clients; the second one cannot connect, and a call of WSACleanup fails. *)
Definition two_clients : list op := [ONew KPlain server 25; ONew KForced server 465; OSend 0 hi; OSend 1 hi; ODestroy 1; ODestroy 0].
Definition failing : wenv := mkWenv [] [0; 11001] [10093] [] [] (fun _ => Some (B "error")).
Definition winsock (t : list wevent) : list wevent := filter (fun ev => match ev with WStartup _ | WCleanup _ => true | _ => false end) t.
Example C75_example :
  wresults two_clients (wire (hello ++ mail_replies)) failing = [Done 0; Done 0; Done 0; Done (-5); Done 0; Done 0] /\
  winsock (wtrace two_clients (wire (hello ++ mail_replies)) failing) = [WStartup 0; WCleanup 10093; WStartup 0; WCleanup 0].
Proof. vm_compute. auto. Qed.

(** ** C76: every reference to WinSock is released *)

(** C76: when all clients are destroyed, WSACleanup has succeeded as often as
    WSAStartup, if it never failed and the program does not send with a client
    that had to connect for a message and failed to send it, that was moved from
    or assigned to. *)
Theorem C76_all_released_partial : forall ops e x outs w,
  wrun ops (initial_wworld e x) = (outs, w) -> tidy [] ops (initial_wworld e x) ->
  Forall (fun c => c = None) (w_clients (ww w)) -> (forall r, In (WCleanup r) (ww_trace w) -> r = 0) ->
  cleanups (ww_trace w) = startups (ww_trace w).
Proof. exact all_released. Qed.
Print Assumptions C76_all_released_partial.

(** Deciding [tidy]. *)
Fixpoint tidyb (spent : list nat) (ops : list op) (w : wworld) : bool :=
  match ops with
  | [] => true
  | o :: r =>
      let '(x, w') := wstep o w in
      match o with OSend i _ => negb (existsb (Nat.eqb i) spent) | _ => true end &&
      match o with ODestroy _ => match x with Done r => r =? 0 | _ => false end | _ => true end &&
      (if continues x then tidyb (spends o x (skipn (length (ww_trace w)) (ww_trace w')) ++ spent) r w' else true)
  end.
Lemma tidyb_ok ops : forall spent w, tidyb spent ops w = true -> tidy spent ops w.
Proof.
  induction ops as [|o r IH]; intros spent w; cbn [tidyb tidy]; [auto|]. destruct (wstep o w) as [x w'].
  rewrite !andb_true_iff. intros [[H1 H2] H3]. split; [|split].
  - intros i m -> J. apply negb_true_iff in H1. rewrite <- Bool.not_true_iff_false in H1. apply H1, existsb_exists. exists i. now rewrite Nat.eqb_refl.
  - intros i ->. destruct x; try discriminate. apply Z.eqb_eq in H2. now subst.
  - intros C. rewrite C in H3. now apply IH.
Qed.
(** The hypotheses are met: a connection that survives a refused message, is
    moved and used again, and a copy whose connection is refused. *)
Definition tidy_program : list op :=
  [ONew KPlain server 25; OSetBatch 0 true; OSend 0 hi; OSend 0 hi; OSend 0 hi; OMove 0; OCopy 1; OSend 1 hi; OSend 2 hi;
   ODestroy 0; ODestroy 1; ODestroy 2].
Definition tidy_network : env := wire (hello ++ mail_replies ++ said "550 no" ++ mail_replies ++ mail_replies ++ told "554 go away").
Example C76_example : let '(outs, w) := wrun tidy_program (initial_wworld tidy_network windows) in
  outs = [Done 0; Done 0; Done 0; Done 550; Done 0; Done 0; Done 0; Done 0; Done 554; Done 0; Done 0; Done 0] /\
  tidy [] tidy_program (initial_wworld tidy_network windows) /\
  Forall (fun c => c = None) (w_clients (ww w)) /\ (forall r, In (WCleanup r) (ww_trace w) -> r = 0) /\ startups (ww_trace w) = 2%nat.
Proof.
  destruct (wrun tidy_program (initial_wworld tidy_network windows)) as [outs w] eqn:E. vm_compute in E. injection E as <- <-.
  split; [reflexivity|]. split; [|split; [repeat constructor|split; [|reflexivity]]].
  - apply tidyb_ok. vm_compute. reflexivity.
  - intros r I. vm_compute in I. repeat (destruct I as [I|I]; [try discriminate I; try (injection I as <-; reflexivity)|]). destruct I.
Qed.

(** C76 fails when a client tries again after the server refused it: the
    connection attempt takes a second reference and only one is released. *)
Theorem C76_retry_refuted : exists ops e,
  wresults ops e windows = [Done 0; Done 554; Done 0; Done 0] /\ ops = [ONew KPlain server 25; OSend 0 hi; OSend 0 hi; ODestroy 0] /\
  winsock (wtrace ops e windows) = [WStartup 0; WStartup 0; WCleanup 0].
Proof. exists [ONew KPlain server 25; OSend 0 hi; OSend 0 hi; ODestroy 0], (wire (told "554 busy" ++ hello ++ mail_replies)). vm_compute. auto. Qed.
Print Assumptions C76_retry_refuted.

(** C76 fails for a connected client that is assigned to and sends again. *)
Theorem C76_assigned_refuted : exists ops e,
  ops = [ONew KPlain server 25; OSetBatch 0 true; ONew KPlain server 25; OSend 0 hi; OCopyAssign 0 1; OSend 0 hi; ODestroy 0; ODestroy 1] /\
  wresults ops e windows = repeat (Done 0) 8 /\ winsock (wtrace ops e windows) = [WStartup 0; WStartup 0; WCleanup 0].
Proof. exists [ONew KPlain server 25; OSetBatch 0 true; ONew KPlain server 25; OSend 0 hi; OCopyAssign 0 1; OSend 0 hi; ODestroy 0; ODestroy 1]. exists (wire (hello ++ mail_replies ++ hello ++ mail_replies)). vm_compute. auto. Qed.
Print Assumptions C76_assigned_refuted.

(** ** C77: sockets are used only while WinSock is started *)

(** C77: a program that moves no client exchanges data only while a reference
    to WinSock is held. *)
Theorem C77_data_need_reference_partial : forall ops e x p ev s, Forall (fun o => moves o = false) ops ->
  ww_trace (snd (wrun ops (initial_wworld e x))) = p ++ WSock ev :: s -> transfers ev = true -> (cleanups p < startups p)%nat.
Proof. exact data_need_reference. Qed.
Print Assumptions C77_data_need_reference_partial.

(** The hypotheses are met. *)
Example C77_example : Forall (fun o => moves o = false) win_program /\
  In (WSock (EvPuts 1 (B "MAIL FROM: <joe@example.com>" ++ CRLF) WFull)) (wtrace win_program win_network windows) /\
  transfers (EvPuts 1 (B "MAIL FROM: <joe@example.com>" ++ CRLF) WFull) = true.
Proof. split; [repeat constructor|]. split; [|reflexivity]. vm_compute. repeat (try (left; reflexivity); right). Qed.

(** C77 fails after a move: destroying the source releases the reference of the
    connection, which the new client goes on using. *)
Theorem C77_moved_refuted : exists ops e p s d,
  ops = [ONew KPlain server 25; OSetBatch 0 true; OSend 0 hi; OMove 0; ODestroy 0; OSend 1 hi] /\
  wtrace ops e windows = p ++ WSock (EvSend 3 d WFull) :: s /\ cleanups p = startups p.
Proof.
  exists [ONew KPlain server 25; OSetBatch 0 true; OSend 0 hi; OMove 0; ODestroy 0; OSend 1 hi]. exists (wire (hello ++ mail_replies ++ mail_replies)).
  match goal with |- exists p s d, _ /\ ?l = _ /\ _ => remember l as t eqn:E end. vm_compute in E.
  exists (firstn 41 t), (skipn 42 t). eexists. split; [reflexivity|]. subst t. vm_compute. split; reflexivity.
Qed.
Print Assumptions C77_moved_refuted.

(** C77 fails for closing: after a refused connection the reference is released
    first and the socket is shut down and closed when the client is destroyed. *)
Theorem C77_close_refuted : exists ops e p s,
  ops = [ONew KPlain server 25; OSend 0 hi; ODestroy 0] /\
  wtrace ops e windows = p ++ WShutdown 3 :: WSock (EvClose 3) :: s /\ cleanups p = startups p.
Proof.
  exists [ONew KPlain server 25; OSend 0 hi; ODestroy 0]. exists (mkEnv [] [] [] [] [SkFd 3] [] [] [Some 10061] [] [] [] files (fun _ => B "error") (fun _ => []) 0).
  match goal with |- exists p s, _ /\ ?l = _ /\ _ => remember l as t eqn:E end. vm_compute in E.
  exists (firstn 5 t), (skipn 7 t). split; [reflexivity|]. subst t. vm_compute. split; reflexivity.
Qed.
Print Assumptions C77_close_refuted.

(** ** C78: a failed connection attempt is reported as such *)

(** C78: if a call of a connection attempt fails, sending ends with the code
    documented for that call (-4 for WSAStartup, -5 for the look-up of the name,
    -1 for the socket, -2 for the connection) and exchanges no data. *)
Theorem C78_failed_start : forall i m w r w' t ev c,
  wstep (OSend i m) w = (Done r, w') -> ww_trace w' = ww_trace w ++ t ->
  In ev t -> failed ev = Some c -> r = c /\ forall e, In (WSock e) t -> transfers e = false.
Proof. exact failed_start. Qed.
Print Assumptions C78_failed_start.

(** The hypotheses are met for each of the calls. *)
Definition attempt (e : env) (x : wenv) : outcome Z * list wevent :=
  let '(r, w) := wstep (OSend 0 hi) (snd (wrun [ONew KPlain server 25] (initial_wworld e x))) in (r, ww_trace w).
Example C78_example :
  (fst (attempt (wire hello) (mkWenv [10091] [] [] [] [] (fun _ => None))) = Done (-4) /\
   In (WStartup 10091) (snd (attempt (wire hello) (mkWenv [10091] [] [] [] [] (fun _ => None))))) /\
  (fst (attempt (wire hello) (mkWenv [] [11001] [] [] [] (fun _ => None))) = Done (-5) /\
   In (WAddr server 25 11001) (snd (attempt (wire hello) (mkWenv [] [11001] [] [] [] (fun _ => None))))) /\
  (fst (attempt (network [SkErr 10024] hello [] [] [] []) windows) = Done (-1) /\
   In (WSock (EvSocket (SkErr 10024))) (snd (attempt (network [SkErr 10024] hello [] [] [] []) windows))) /\
  (let e := mkEnv [] [] [] [] [SkFd 3] [] [] [Some 10061] [] [] [] files (fun _ => B "error") (fun _ => []) 0 in
   fst (attempt e windows) = Done (-2) /\ In (WSock (EvConnect 3 25 false)) (snd (attempt e windows))).
Proof.
  split; [|split; [|split]]; cbv zeta; (split; [vm_compute; reflexivity|vm_compute; repeat (try (left; reflexivity); right)]).
Qed.

(** ** C79: what a connection attempt acquires from Windows is released *)

(** C79: after a message that was sent, every certificate store that was opened
    for it has been closed. *)
Theorem C79_store_closed_partial : forall i m w w' t,
  wstep (OSend i m) w = (Done 0, w') -> ww_trace w' = ww_trace w ++ t -> opened t = closed t.
Proof. exact send_closes_store. Qed.
Print Assumptions C79_store_closed_partial.

(** The hypotheses are met. *)
Example C79_example : let w := snd (wrun [ONew KOpp server 587; OSetBatch 0 true; OSetCred 0 joe_cred] (initial_wworld win_network windows)) in
  fst (wstep (OSend 0 hi) w) = Done 0 /\ opened (ww_trace (snd (wstep (OSend 0 hi) w))) = 1%nat /\ ww_trace w = [].
Proof. vm_compute. auto. Qed.

(** C79 fails for the store when the negotiation fails. *)
Theorem C79_store_refuted : exists ops e,
  ops = [ONew KForced server 465; OSend 0 hi; ODestroy 0] /\ wresults ops e windows = [Done 0; Done SSL_CLIENT_STARTTLS_BIO_HANDSHAKE_ERROR; Done 0] /\
  opened (wtrace ops e windows) = 1%nat /\ closed (wtrace ops e windows) = 0%nat.
Proof. exists [ONew KForced server 465; OSend 0 hi; ODestroy 0]. exists (tls_wire [] [] [mkTls true true true true false true 0 true 1]). vm_compute. auto. Qed.
Print Assumptions C79_store_refuted.

(** C79 fails for lists of addresses: no program ever frees one. *)
Theorem C79_addresses_refuted :
  (forall ops e x, ~ In WAddrFree (ww_trace (snd (wrun ops (initial_wworld e x))))) /\
  In (WAddr server 587 0) (wtrace win_program win_network windows).
Proof. split; [exact never_freed|]. vm_compute. repeat (try (left; reflexivity); right). Qed.
Print Assumptions C79_addresses_refuted.
