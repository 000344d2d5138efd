(** C95, C96: the settings of a client and the time spent waiting, in the Windows
    build. *)

From Coq Require Import Ascii String List NArith ZArith Bool.
From Verif Require Import Base ModelAddress ModelAttachment ModelMessage ModelReply ModelErrors ModelState ModelClient
  ModelWorld SpecReply SpecErrors SpecDialogue SpecConn SpecPatience SpecConfig SpecWinSafe ModelWin ProofWinConfig ProofWinTime2 PropsConfig PropsWin Samples.
Import ListNotations.
Open Scope Z_scope.

(** ** C95 *)

(** C95: after every program, every client shows the settings that the setters,
    copies and moves called for, and no other (compare C67). *)
Theorem C95_settings_on_windows : forall ops e x,
  map (option_map shown) (w_clients (ww (snd (wrun ops (initial_wworld e x))))) =
  fold_left intended (combine ops (fst (wrun ops (initial_wworld e x)))) [].
Proof. exact settings_keptW. Qed.
Print Assumptions C95_settings_on_windows.
Example C95_example :
  let r := wrun varied (initial_wworld (wire (told "220 ready" ++ said "550 no")) windows) in
  fst r = repeat (Done 0%Z) 7 ++ [Throw; Done 0%Z; Done 0%Z; Done 550%Z] ++ repeat (Done 0%Z) 6 /\
  map (option_map shown) (w_clients (ww (snd r))) =
    [Some (mkSettings KOpp (Some (B "mail.example.org")) 25 false 7 (Some joe_cred) true);
     Some (mkSettings KOpp None 0 false 0 None false); None;
     Some (mkSettings KOpp None 0 false 0 None false)].
Proof. vm_compute. split; reflexivity. Qed.

(** ** C96 *)

(** C96: the time slept in one sending operation is at most the configured
    timeout (one second if it is zero), once for each command or reply and once
    more (compare C39). *)
Theorem C96_waiting_on_windows : forall i c m w x w' t, get_client (ww w) i = Some c ->
  wstep (OSend i m) w = (x, w') -> ww_trace w' = ww_trace w ++ t ->
  (slept (common t) <= N.max 1 (c_timeout c) * (activity (common t) + 1))%N.
Proof. intros i c m w x w' t G H Tt. exact (proj1 (wworld_time i c m w x w' t G H Tt)). Qed.
Print Assumptions C96_waiting_on_windows.
(** C96: if everything received begins with a reply code, a timeout code means
    that the configured number of seconds passed without a byte received or
    written (compare C73). *)
Theorem C96_timeout_means_silence_on_windows : forall i c m w r w' t, get_client (ww w) i = Some c ->
  wstep (OSend i m) w = (Done r, w') -> ww_trace w' = ww_trace w ++ t -> In r timeout_codes -> coded_reads (common t) ->
  silence (c_timeout c) (common t).
Proof. intros i c m w r w' t G H Tt I R. exact (proj2 (wworld_time i c m w _ w' t G H Tt) r eq_refl R I). Qed.
Print Assumptions C96_timeout_means_silence_on_windows.

(** A greeting after two seconds, a reply to EHLO after one, and none to MAIL. *)
Definition tardy : env := wire ([RErr 11; RErr 11] ++ told "220 ready" ++ [RErr 11] ++ said "250 ok" ++ repeat (RErr 11) 20).
Example C96_example : let w := snd (wrun [ONew KPlain server 25] (initial_wworld tardy windows)) in exists c t,
  get_client (ww w) 0 = Some c /\ c_timeout c = 5%N /\ fst (wstep (OSend 0 hi) w) = Done (-86) /\ In (-86) timeout_codes /\
  ww_trace (snd (wstep (OSend 0 hi) w)) = ww_trace w ++ t /\ slept (common t) = 8%N /\ activity (common t) = 4%N /\ coded_reads (common t).
Proof.
  cbv zeta. eexists. match goal with |- exists _, _ /\ _ /\ _ /\ _ /\ ?l = _ /\ _ => exists (skipn 0 l) end.
  split; [vm_compute; reflexivity|]. split; [vm_compute; reflexivity|]. split; [vm_compute; reflexivity|].
  split; [cbn; tauto|]. split; [vm_compute; reflexivity|]. split; [vm_compute; reflexivity|]. split; [vm_compute; reflexivity|].
  set (t := common _). vm_compute in t. subst t. intros ev ch d I. vm_compute in I.
  assert (X : begins_with_code (B "220 ready" ++ CRLF)).
  { exists "2"%char, "2"%char, "0"%char, " "%char, 2, 2, 0. eexists. split; [reflexivity|]. repeat split; vm_compute; congruence. }
  assert (Y : begins_with_code (B "250 ok" ++ CRLF)).
  { exists "2"%char, "5"%char, "0"%char, " "%char, 2, 5, 0. eexists. split; [reflexivity|]. repeat split; vm_compute; congruence. }
  repeat destruct I as [<-|I]; try (intros [(fd & E)|(b & E)]; first [discriminate E|injection E as <- <- <-; first [exact X|exact Y]]). destruct I.
Qed.

(** C96: the second condition is needed.  A server that answers MAIL with "ok"
    at once is reported as silent. *)
Example C96_codes_needed : exists e, let w := snd (wrun [ONew KPlain server 25] (initial_wworld e windows)) in
  fst (wstep (OSend 0 hi) w) = Done CLIENT_SENDMAIL_MAILFROM_TIMEOUT /\
  In (EvRecv 3 (RData (B "ok"))) (common (ww_trace (snd (wstep (OSend 0 hi) w)))) /\
  slept (common (ww_trace (snd (wstep (OSend 0 hi) w)))) = 0%N.
Proof.
  exists (wire (hello ++ [RData (B "ok"); RErr 11] ++ repeat (RErr 11) 20)). vm_compute.
  split; [reflexivity|]. split; [|reflexivity]. repeat (try (left; reflexivity); right).
Qed.
