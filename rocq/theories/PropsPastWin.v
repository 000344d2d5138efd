(** C105 on Windows. *)

From Coq Require Import Ascii String List NArith ZArith Bool Lia.
From Verif Require Import Base ModelAddress ModelAttachment ModelMessage ModelReply ModelErrors ModelState ModelClient ModelWorld ModelWin
  SpecPast SpecPastWin Samples ProofPast ProofPastWin2 PropsPast.
Import ListNotations.
Open Scope Z_scope.

(** C105 for the Windows build.  Missing: programs that assign one client to
    another, for which it is false (below). *)
Theorem C105_windows_partial : forall ops w1 w2, Forall no_assignment ops -> same_wworld w1 w2 ->
  fst (wrun ops w1) = fst (wrun ops w2) /\ ww_trace (snd (wrun ops w1)) = ww_trace (snd (wrun ops w2)) /\ same_wworld (snd (wrun ops w1)) (snd (wrun ops w2)).
Proof. intros ops w1 w2 N W. destruct (wrun_same ops w1 w2 N W) as [E W']. split; [exact E|]. split; [apply W'|exact W']. Qed.
Print Assumptions C105_windows_partial.

(** A client without a connection and without WinSock can be replaced by a new
    one with the same settings. *)
Theorem C105_windows_reuse_partial : forall ops w i c, Forall no_assignment ops -> get_client (ww w) i = Some c -> at_rest c ->
  length (ww_on w) = length (w_clients (ww w)) -> nth i (ww_on w) false = false ->
  fst (wrun ops w) = fst (wrun ops (with_client i (as_new c) w)) /\ ww_trace (snd (wrun ops w)) = ww_trace (snd (wrun ops (with_client i (as_new c) w))).
Proof.
  intros ops w i c N G R L O. destruct (wrun_same ops w _ N (with_same w i c _ G (rest_past c R) L O)) as [E (_ & _ & _ & T & _)]. split; [exact E|exact T].
Qed.
Print Assumptions C105_windows_reuse_partial.

Definition after_mail : wworld := snd (wrun first_mail (initial_wworld two_mails (mkWenv [] [] [] [] [] (fun _ => None)))).
Example C105_windows_example : exists c, get_client (ww after_mail) 0 = Some c /\ at_rest c /\ c_resp c <> None /\ (100 < slen (getCommunicationLog c))%N /\
  length (ww_on after_mail) = length (w_clients (ww after_mail)) /\ nth 0 (ww_on after_mail) false = false /\
  same_wworld after_mail (with_client 0 (as_new c) after_mail) /\ fst (wrun [OSend 0 hi] after_mail) = [Done 0].
Proof.
  assert (G : exists c, get_client (ww after_mail) 0 = Some c /\ at_rest c /\ c_resp c <> None /\ (100 < slen (getCommunicationLog c))%N).
  { eexists. split; [vm_compute; reflexivity|]. split; [repeat split|]. split; [discriminate|]. vm_compute. reflexivity. }
  assert (L : length (ww_on after_mail) = length (w_clients (ww after_mail))) by (vm_compute; reflexivity).
  assert (O : nth 0 (ww_on after_mail) false = false) by (vm_compute; reflexivity).
  destruct G as (c & G & R & P & S). exists c. split; [exact G|]. split; [exact R|]. split; [exact P|]. split; [exact S|]. split; [exact L|]. split; [exact O|].
  split; [exact (with_same _ _ _ _ G (rest_past c R) L O)|vm_compute; reflexivity].
Qed.

(** A client that has met a busy server has started WinSock.  A client that has
    done nothing, or one with a log, is moved into it; then WSACleanup fails. *)
Definition busy : wworld :=
  snd (wrun [ONew KPlain server 25; OSend 0 hi; ONew KPlain server 25] (initial_wworld (wire (Samples.told "554 busy"%string)) (mkWenv [] [] [10093] [] [] (fun _ => None)))).
Theorem C105_windows_assignment_refuted : exists c used ops, get_client (ww busy) 1 = Some c /\ used = set_log (Some (mkLog [] INITIAL_COMM_LOG_LENGTH)) INITIAL_COMM_LOG_LENGTH c /\
  same_wworld busy (with_client 1 used busy) /\
  fst (wrun ops busy) = [Done 0; Undef (UB_NullDeref PLog)] /\ fst (wrun ops (with_client 1 used busy)) = [Done 0; Done 0].
Proof.
  pose (new := mkClient KPlain false server 25 false None 0 None 5 0 None None 0 false false None None false).
  assert (G : get_client (ww busy) 1 = Some new) by (vm_compute; reflexivity).
  exists new, (set_log (Some (mkLog [] INITIAL_COMM_LOG_LENGTH)) INITIAL_COMM_LOG_LENGTH new), [OMoveAssign 0 1; ODestroy 0]. split; [exact G|]. split; [reflexivity|].
  split. { apply (with_same _ _ _ _ G); [|vm_compute; reflexivity|vm_compute; reflexivity]. unfold same_but_past. repeat (apply conj; [reflexivity|]). discriminate. }
  split; vm_compute; reflexivity.
Qed.
Print Assumptions C105_windows_assignment_refuted.
