(** C106 on Windows. *)

From Coq Require Import Ascii String List NArith ZArith Bool.
From Verif Require Import Base ModelUtil ModelAddress ModelMessage ModelState ModelClient ModelWorld ModelWin
  SpecThrow SpecTexts SpecTextsWin SpecWinSafe Samples ProofTexts2 ProofTextsWin PropsWinSafe PropsTexts.
Import ListNotations.
Open Scope Z_scope.

(** C106 for the Windows build; Windows may even have no text for an error.  The
    programs are those of C83, whose logs are safe: they assign and move no
    client, or no WSACleanup fails.  Missing: the others, for which it is false
    (below); programs of which a call raises an exception. *)
Theorem C106_windows_partial : forall ops e x f g h,
  let a := wrun ops (initial_wworld e x) in let b := wrun ops (initial_wworld (texts f g e) (wtexts h x)) in
  Forall (fun o => reassigns o = false) ops \/
    (forall r, In (WCleanup r) (ww_trace (snd a)) -> r = 0) /\ (forall r, In (WCleanup r) (ww_trace (snd b)) -> r = 0) ->
  ~ In Throw (fst a) -> ~ In Throw (fst b) ->
  fst a = fst b /\ ww_trace (snd a) = ww_trace (snd b) /\
  forall i, match get_client (ww (snd a)) i, get_client (ww (snd b)) i with
            | Some c, Some d => same_but_log c d
            | None, None => True
            | _, _ => False
            end.
Proof.
  intros ops e x f g h a b H Ta Tb.
  assert (Q : (forall o, wbad o -> ~ In o (fst a)) /\ (forall o, wbad o -> ~ In o (fst b))).
  { destruct H as [H|[H1 H2]].
    - split; intros o [->|[->| ->]]; try assumption; apply C83_log_without_reassignment_partial; auto.
    - split; intros o [->|[->| ->]]; try assumption; apply C83_log_while_cleanup_succeeds_partial; auto. }
  destruct Q as [Qa Qb].
  destruct (wrun_same f g h ops (initial_wworld e x) (initial_wworld (texts f g e) (wtexts h x))) as [E (W & _ & _ & T)]; [|exact Qa|exact Qb|].
  { split; [split; [constructor|split; reflexivity]|repeat split]. }
  split; [exact E|]. split; [exact T|]. intros i. pose proof (get_same f g _ _ i W) as G. fold a b in G.
  destruct (get_client (ww (snd a)) i), (get_client (ww (snd b)) i); try contradiction; [|exact Logic.I]. destruct G as (l & z & -> & _). exists l, z. reflexivity.
Qed.
Print Assumptions C106_windows_partial.

(** The name of the server is not found at first. *)
Definition two_tries : list op := [ONew KPlain server 25; OSend 0 hi; OSend 0 hi; ODestroy 0].
Definition unknown_host (h : Z -> option str) : wenv := mkWenv [] [11001; 0] [] [] [] h.
Example C106_windows_example : let e := wire (hello ++ mail_replies) in let x := unknown_host (fun _ => None) in let h := fun _ : Z => Some (B "unknown host") in
  Forall (fun o => reassigns o = false) two_tries /\ fst (wrun two_tries (initial_wworld e x)) = [Done 0; Done (-5); Done 0; Done 0] /\
  fst (wrun two_tries (initial_wworld e (wtexts h x))) = [Done 0; Done (-5); Done 0; Done 0] /\
  (forall c d, get_client (ww (snd (wrun (firstn 2 two_tries) (initial_wworld e x)))) 0 = Some c ->
     get_client (ww (snd (wrun (firstn 2 two_tries) (initial_wworld e (wtexts h x))))) 0 = Some d -> getCommunicationLog c <> getCommunicationLog d).
Proof.
  cbv zeta. split; [repeat constructor|]. split; [vm_compute; reflexivity|]. split; [vm_compute; reflexivity|].
  intros c d X Y. vm_compute in X, Y. injection X as <-. injection Y as <-. vm_compute. discriminate.
Qed.

(** A client that has started WinSock is assigned a copy of a client whose log
    holds the text of an error, and WSACleanup fails: whether the copied log is
    overrun depends on the length of that text. *)
Definition assigned : list op :=
  [ONew KPlain server 25; ONew KPlain server 25; OSetBatch 0 true; OSend 0 hi; OSend 1 hi; OCopyAssign 0 1; ODestroy 0].
Definition late_trouble (h : Z -> option str) : wenv := mkWenv [] [0; 11001] [0; 10093] [] [] h.
Theorem C106_windows_assignment_refuted : exists h h' e,
  fst (wrun assigned (initial_wworld e (late_trouble h))) = [Done 0; Done 0; Done 0; Done 0; Done (-5); Done 0; Undef (UB_BufferOverflow BufLog)] /\
  fst (wrun assigned (initial_wworld e (wtexts h' (late_trouble h)))) = [Done 0; Done 0; Done 0; Done 0; Done (-5); Done 0; Done 0].
Proof.
  exists (fun _ => Some (B "unknown host")), (fun _ => Some (repeat "x"%char (N.to_nat 4060))), (wire (hello ++ mail_replies)).
  split; vm_compute; reflexivity.
Qed.
Print Assumptions C106_windows_assignment_refuted.
