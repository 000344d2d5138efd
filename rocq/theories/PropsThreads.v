(** C97, C98: several threads, each with client objects of its own. *)

From Coq Require Import Ascii String List NArith ZArith Bool Lia.
From Verif Require Import Base ModelAddress ModelAttachment ModelMessage ModelState ModelClient ModelWorld ModelThreads
  SpecOwn SpecThreads SpecLookup PropsOwn ProofThreads ProofWinThreads ProofLookup2 SpecWinSafe ModelWin PropsWin Samples.
Import ListNotations.
Open Scope Z_scope.

(** ** C97 *)

(** C97: however the system interleaves any number of threads, and wherever each
    of them has come to, a thread connects, configures, reads, writes or closes
    only sockets that it opened itself and has not closed, and that no other
    thread has, be it in clear or over TLS; except that descriptor 0 is left out.  What the operating system
    guarantees is [fresh]: a descriptor it hands out is not one that is still
    open in the process. *)
Theorem C97_threads_partial : forall P E T, scheduled P E T -> fresh sockets (process T) -> private_from 1 T.
Proof. exact threads_private. Qed.
Print Assumptions C97_threads_partial.
(** C97: the same in the Windows build. *)
Theorem C97_threads_on_windows_partial : forall P E X T, scheduled_on_windows P E X T -> fresh sockets (process (on_both T)) ->
  private_from 1 (on_both T).
Proof. exact threads_privateW. Qed.
Print Assumptions C97_threads_on_windows_partial.

(** C97: every action on a TLS connection is about exactly one socket: the one on
    which the thread created the BIO.  So C97 speaks about each of them. *)
Theorem C97_tls : forall P E T, scheduled P E T -> tls_on_one_socket T.
Proof. exact threads_tls. Qed.
Print Assumptions C97_tls.
(** C97: the same in the Windows build. *)
Theorem C97_tls_on_windows : forall P E X T, scheduled_on_windows P E X T -> tls_on_one_socket (on_both T).
Proof. exact threads_tlsW. Qed.
Print Assumptions C97_tls_on_windows.

(** Two threads that send one mail each, at the same time: the second begins when
    the first has looked up its server; the first ends while the second is busy;
    then the second ends and begins again with the descriptor that the first has
    closed. *)
Definition once : list op := [ONew KPlain server 25; OSend 0 hi].
Definition twice : list op := [ONew KPlain server 25; OSend 0 hi; OSend 0 hi].
Definition net_of (fds : list N) : env :=
  network (map SkFd fds) (flat_map (fun _ => hello ++ mail_replies) fds) [] [] [] [].
Definition pair_of (i : nat) : list op := match i with 0%nat => once | 1%nat => twice | _ => [] end.
Definition nets_of (i : nat) : env := match i with 0%nat => net_of [3%N] | _ => net_of [4%N; 3%N] end.
Definition of {A} (i : nat) (l : list A) : schedule A := map (pair i) l.
Definition interleaving : schedule event :=
  of 0 (firstn 2 (events once (net_of [3%N]))) ++ of 1 (firstn 30 (events twice (net_of [4%N; 3%N]))) ++
  of 0 (skipn 2 (events once (net_of [3%N]))) ++ of 1 (firstn 30 (skipn 30 (events twice (net_of [4%N; 3%N])))).

Lemma thread_of : forall {A} i j (l : list A), thread i (of j l) = if Nat.eqb j i then l else [].
Proof.
  intros A i j l. unfold thread, of. destruct (Nat.eqb j i) eqn:E; (induction l as [|x l IH]; [reflexivity|]; cbn; rewrite E; cbn).
  - rewrite IH. reflexivity.
  - exact IH.
Qed.

Lemma of_fst : forall {A} i (l : list A) x, In x (of i l) -> fst x = i.
Proof. intros A i l x I. unfold of in I. apply in_map_iff in I as (y & <- & _). reflexivity. Qed.
Lemma split_runs : forall {A} (l : list A) n m, exists later, l = (firstn n l ++ firstn m (skipn n l)) ++ later.
Proof.
  intros A l n m. exists (skipn m (skipn n l)). rewrite <- app_assoc, firstn_skipn, firstn_skipn. reflexivity.
Qed.

Example C97_example : scheduled pair_of nets_of interleaving /\ fresh sockets (process interleaving) /\
  length interleaving = 110%nat /\ has 1 interleaving 3 /\ ~ has 0 interleaving 3 /\
  (exists d r, nth_error interleaving 59 = Some (0%nat, EvSend 3 d r)) /\ has 0 (firstn 59 interleaving) 3 /\
  has 1 (firstn 59 interleaving) 4.
Proof.
  split; [|split; [apply fresh_checked; vm_compute; reflexivity|split; [vm_compute; reflexivity|]]].
  - intros i. unfold interleaving, events. rewrite !thread_app, !thread_of.
    destruct i as [|[|i]]; cbn [Nat.eqb pair_of nets_of]; rewrite ?app_nil_l; rewrite ?app_nil_r.
    + exists []. rewrite firstn_skipn, app_nil_r. reflexivity.
    + apply split_runs.
    + exists []. reflexivity.
  - split; [vm_compute; auto|]. split; [vm_compute; intros []|].
    split; [eexists _, _; vm_compute; reflexivity|]. split; vm_compute; auto.
Qed.

(** Two threads that send over TLS at the same time: when the first sends its
    password, the second has a TLS connection on another socket. *)
Definition secure_once (i : nat) : list op :=
  match i with 0%nat | 1%nat => [ONew KForced server 465; OSetCred 0 joe_cred; OSend 0 hi] | _ => [] end.
Definition secure_net (i : nat) : env :=
  network [SkFd (3 + N.of_nat i)] [] (told "220 ready" ++ tls_ident ++ said "235 ok" ++ mail_replies) [] [] [good_tls].
Definition secure_events (i : nat) : list event := events (secure_once i) (secure_net i).
Definition secure_interleaving : schedule event :=
  of 0 (firstn 11 (secure_events 0)) ++ of 1 (firstn 13 (secure_events 1)) ++ of 0 (skipn 11 (secure_events 0)).
Example C97_tls_example : scheduled secure_once secure_net secure_interleaving /\ fresh sockets (process secure_interleaving) /\
  exists b before after, let password := EvPuts b (B "AUTH PLAIN AGpvZQBzZWNyZXQ=" ++ CRLF) WFull in
    secure_interleaving = before ++ (0%nat, password) :: after /\
    uses (thread 0 before) password = [3] /\ has 0 before 3 /\ has 1 before 4 /\
    exists b', In (EvHandshake b' true) (thread 1 before).
Proof.
  split; [|split; [apply fresh_checked; vm_compute; reflexivity|]].
  - intros i. unfold secure_interleaving, secure_events, events. rewrite !thread_app, !thread_of.
    destruct i as [|[|i]]; cbn [Nat.eqb secure_once]; rewrite ?app_nil_l, ?app_nil_r.
    + exists []. rewrite firstn_skipn, app_nil_r. reflexivity.
    + eexists. symmetry. apply firstn_skipn.
    + exists []. reflexivity.
  - exists 1%nat, (firstn 28 secure_interleaving), (skipn 29 secure_interleaving). cbv zeta.
    split; [vm_compute; reflexivity|]. split; [vm_compute; reflexivity|]. split; [vm_compute; auto|]. split; [vm_compute; auto|].
    exists 1%nat. vm_compute. tauto.
Qed.

(** The same two threads in the Windows build. *)
Definition w_events (ops : list op) (e : env) : list wevent := ww_trace (snd (wrun ops (initial_wworld e windows))).
Definition interleaving_on_windows : schedule wevent :=
  of 0 (firstn 3 (w_events once (net_of [3%N]))) ++ of 1 (firstn 30 (w_events twice (net_of [4%N; 3%N]))) ++
  of 0 (skipn 3 (w_events once (net_of [3%N]))) ++ of 1 (firstn 40 (skipn 30 (w_events twice (net_of [4%N; 3%N])))).
Example C97_example_on_windows : scheduled_on_windows pair_of nets_of (fun _ => windows) interleaving_on_windows /\
  fresh sockets (process (on_both interleaving_on_windows)) /\
  has 1 (on_both interleaving_on_windows) 3 /\ ~ has 0 (on_both interleaving_on_windows) 3.
Proof.
  split; [|split; [apply fresh_checked; vm_compute; reflexivity|]].
  - intros i. unfold interleaving_on_windows, w_events. rewrite !thread_app, !thread_of.
    destruct i as [|[|i]]; cbn [Nat.eqb pair_of nets_of]; rewrite ?app_nil_l; rewrite ?app_nil_r.
    + exists []. rewrite firstn_skipn, app_nil_r. reflexivity.
    + apply split_runs.
    + exists []. reflexivity.
  - split; [vm_compute; auto|]. vm_compute. intros [].
Qed.

(** C97 fails for descriptor 0, which a client uses when its connection is gone
    (compare C43).  In a process without standard input the first socket has
    the number 0.  Here it belongs to the second thread; when a write of the
    first thread fails, the rest of its mail goes to the server of the second. *)
Definition breaking (i : nat) : env :=
  match i with
  | 0%nat => network [SkFd 3] (hello ++ mail_replies) [] (repeat WFull 5 ++ [WErr 32]) [] []
  | _ => net_of [0%N]
  end.
Definition pair_once (i : nat) : list op := match i with 0%nat | 1%nat => once | _ => [] end.
Definition intrusion : schedule event :=
  of 1 (firstn 8 (events once (breaking 1))) ++ of 0 (events once (breaking 0)).
Theorem C97_descriptor_0_refuted : exists P E T before r after, scheduled P E T /\ fresh sockets (process T) /\
  T = before ++ (0%nat, EvSend 0 (B "Subject: Hi" ++ CRLF) r) :: after /\ has 1 before 0 /\ ~ has 0 before 0.
Proof.
  exists pair_once, breaking, intrusion, (firstn 47 intrusion), WFull, (skipn 48 intrusion).
  split; [|split; [apply fresh_checked; vm_compute; reflexivity|]].
  - intros i. unfold intrusion, events. rewrite !thread_app, !thread_of.
    destruct i as [|[|i]]; cbn [Nat.eqb pair_once]; rewrite ?app_nil_l, ?app_nil_r.
    + exists []. rewrite app_nil_r. reflexivity.
    + eexists. symmetry. apply firstn_skipn.
    + exists []. reflexivity.
  - split; [vm_compute; reflexivity|]. split; [vm_compute; auto|]. vm_compute. intros [].
Qed.
Print Assumptions C97_descriptor_0_refuted.

(** ** C98 *)

(** C98 fails: two threads of one process, with clients for two servers; the
    second thread looks up its server before the first has copied the address
    it found, and the first connects to the server of the second. *)
Definition post_of (i : nat) : list op :=
  match i with
  | 0%nat => [ONew KPlain (Some (B "first.example.com")) 25; OSend 0 hi]
  | 1%nat => [ONew KPlain (Some (B "second.example.com")) 25; OSend 0 hi]
  | _ => []
  end.
Definition acts_of (i : nat) : list action := actions (events (post_of i) (net_of [N.of_nat i + 3]%N)).
Definition collision : schedule action :=
  of 0 (firstn 2 (acts_of 0)) ++ of 1 (firstn 2 (acts_of 1)) ++ of 0 (skipn 2 (acts_of 0)).
Theorem C98_wrong_server_refuted : exists P E T before fd port ok after, interleaved P E T /\
  T = before ++ (0%nat, Call (EvConnect fd port ok)) :: after /\
  asked 0 before = Some (B "first.example.com") /\ copied (addresses_after before) 0 = Some (B "second.example.com").
Proof.
  exists post_of, (fun i => net_of [N.of_nat i + 3]%N), collision, (firstn 7 collision), 3, 25%N, true, (skipn 8 collision).
  split.
  { intros i. unfold collision, acts_of, events. rewrite !thread_app, !thread_of.
    destruct i as [|[|i]]; cbn [Nat.eqb]; rewrite ?app_nil_l; rewrite ?app_nil_r.
    - exists []. rewrite firstn_skipn, app_nil_r. reflexivity.
    - exists (skipn 2 (actions (w_trace (snd (run (post_of 1) (initial_world (net_of [N.of_nat 1 + 3]%N))))))). rewrite firstn_skipn. reflexivity.
    - exists []. reflexivity. }
  split; [vm_compute; reflexivity|]. split; vm_compute; reflexivity.
Qed.
Print Assumptions C98_wrong_server_refuted.
(** C98 holds for every schedule in which no thread looks up a name while another
    one is between its lookup and the copying of the address (for instance
    because a lock is held while mails are sent). *)
Theorem C98_undisturbed_partial : forall P E T, interleaved P E T -> undisturbed T -> right_server T.
Proof. exact right_server_undisturbed. Qed.
Print Assumptions C98_undisturbed_partial.
(** C98 holds when only one thread uses the library. *)
Theorem C98_one_thread_partial : forall P E T k, interleaved P E T -> (forall x, In x T -> fst x = k) -> right_server T.
Proof. exact right_server_alone. Qed.
Print Assumptions C98_one_thread_partial.

(** The two threads of above, with the second one delayed by one action. *)
Definition orderly_lookups : schedule action :=
  of 0 (firstn 3 (acts_of 0)) ++ of 1 (firstn 3 (acts_of 1)) ++ of 0 (skipn 3 (acts_of 0)) ++ of 1 (skipn 3 (acts_of 1)).
Definition lookup (x : nat * action) : bool := match snd x with Call (EvResolve _ _) => true | _ => false end.
Fixpoint scan (i : nat) (T : schedule action) : bool :=
  match T with
  | [] => true
  | x :: r => if Nat.eqb (fst x) i then true else negb (lookup x) && scan i r
  end.
Fixpoint check (T : schedule action) : bool :=
  match T with
  | [] => true
  | x :: r => (if lookup x then scan (fst x) r else true) && check r
  end.
Lemma checked : forall T, check T = true -> undisturbed T.
Proof.
  intros T H T1 i h T2 T3 E. subst T. induction T1 as [|y T1 IH]; cbn in H; apply andb_prop in H as [H1 H2]; [|apply IH; exact H2].
  clear H2. intros E2 j h' ok I. revert H1 E2. induction T2 as [|[k a] T2 IH]; [destruct I|]. cbn. intros H1 E2.
  unfold thread in E2. cbn in E2. destruct (Nat.eqb k i); [discriminate E2|]. apply andb_prop in H1 as [Hl Hs].
  destruct I as [I|I]; [injection I as _ ->; discriminate Hl|]. exact (IH I Hs E2).
Qed.
Example C98_example : interleaved post_of (fun i => net_of [N.of_nat i + 3]%N) orderly_lookups /\ undisturbed orderly_lookups /\
  length (filter lookup orderly_lookups) = 2%nat /\ length orderly_lookups = 102%nat.
Proof.
  split; [|split; [apply checked; vm_compute; reflexivity|split; vm_compute; reflexivity]].
  intros i. unfold orderly_lookups, acts_of, events. rewrite !thread_app, !thread_of.
  destruct i as [|[|i]]; cbn [Nat.eqb]; rewrite ?app_nil_l, ?app_nil_r.
  - exists []. rewrite firstn_skipn, app_nil_r. reflexivity.
  - exists []. rewrite firstn_skipn, app_nil_r. reflexivity.
  - exists []. reflexivity.
Qed.
(** One thread alone. *)
Example C98_example_one_thread :
  interleaved (fun i => if Nat.eqb i 7 then twice else []) (fun _ => net_of [3; 4]%N) (of 7 (actions (events twice (net_of [3; 4]%N)))) /\
  (forall x, In x (of 7 (actions (events twice (net_of [3; 4]%N)))) -> fst x = 7%nat) /\
  length (filter lookup (of 7 (actions (events twice (net_of [3; 4]%N))))) = 2%nat.
Proof.
  split; [|split; [|vm_compute; reflexivity]].
  - intros i. rewrite thread_of, (Nat.eqb_sym i 7). destruct (Nat.eqb 7 i); [|exists []; reflexivity].
    exists []. rewrite app_nil_r. unfold events. reflexivity.
  - intros x. apply of_fst.
Qed.
