(** C92: the Windows build keeps credentials secret. *)

From Coq Require Import Ascii String List NArith ZArith Bool Lia.
From Verif Require Import Base Lib ModelUtil ModelBase64 ModelAddress ModelAttachment ModelMessage ModelReply ModelErrors ModelState ModelClient ModelWorld
  SpecReply SpecDialogue SpecAuth SpecPair SpecWinPair ProofBase64 ModelWin ProofWinPair PropsPair PropsAuth PropsWin PropsWinMail Samples.
Import ListNotations.
Open Scope Z_scope.

(** C92: two programs that differ only in user names and passwords (of at most
    10^9 bytes), run with the same results of all calls, return the same, leave
    the same objects apart from the credentials in them, and make the same calls
    apart from the base64 text of the authentication lines. *)
Theorem C92_credentials_secret : forall p1 p2 e x, Forall2 same_but_secret p1 p2 -> short_secrets (secrets_of p1 p2) ->
  let w1 := snd (wrun p1 (initial_wworld e x)) in let w2 := snd (wrun p2 (initial_wworld e x)) in
  fst (wrun p1 (initial_wworld e x)) = fst (wrun p2 (initial_wworld e x)) /\
  Forall2 (same_wevent (secrets_of p1 p2)) (ww_trace w1) (ww_trace w2) /\
  forall i, option_map (set_cred None) (get_client (ww w1) i) = option_map (set_cred None) (get_client (ww w2) i).
Proof. exact secrets_wrun. Qed.
Print Assumptions C92_credentials_secret.

(** In particular the communication logs are the same. *)
Theorem C92_log_secret : forall p1 p2 e x i c1 c2, Forall2 same_but_secret p1 p2 -> short_secrets (secrets_of p1 p2) ->
  get_client (ww (snd (wrun p1 (initial_wworld e x)))) i = Some c1 -> get_client (ww (snd (wrun p2 (initial_wworld e x)))) i = Some c2 ->
  getCommunicationLog c1 = getCommunicationLog c2.
Proof. exact secrets_wlog. Qed.
Print Assumptions C92_log_secret.

(** A case: LOGIN is used with two credentials; the wires differ, the logs do
    not. *)
Example C92_example : Forall2 same_but_secret (logging_in joe_cred) (logging_in ann_cred) /\
  short_secrets (secrets_of (logging_in joe_cred) (logging_in ann_cred)) /\
  wresults (logging_in joe_cred) login_env windows = [Done 0; Done 0; Done 0] /\
  wtrace (logging_in joe_cred) login_env windows <> wtrace (logging_in ann_cred) login_env windows /\
  exists c, get_client (ww (snd (wrun (logging_in joe_cred) (initial_wworld login_env windows)))) 0 = Some c /\ (200 < slen (getCommunicationLog c))%N.
Proof.
  split; [|split; [|split; [vm_compute; reflexivity|split]]].
  - constructor; [apply sbs_same|]. constructor; [apply sbs_cred; reflexivity|]. constructor; [apply sbs_same|constructor].
  - constructor; [|constructor]. split; vm_compute; discriminate.
  - assert (E : exists n, match nth n (wtrace (logging_in joe_cred) login_env windows) WAddrFree, nth n (wtrace (logging_in ann_cred) login_env windows) WAddrFree with
        WSock (EvSend _ a _), WSock (EvSend _ b _) => if list_eq_dec Ascii.ascii_dec a b then true else false | _, _ => true end = false) by (exists 15%nat; vm_compute; reflexivity).
    destruct E as [n E]. intros H. rewrite H in E. destruct (nth n _ _) as [[]| | | | | | | | |]; try discriminate E. destruct (list_eq_dec _ _ _); [discriminate E|contradiction].
  - eexists. split; [vm_compute; reflexivity|]. vm_compute. reflexivity.
Qed.

(** The bound on the size is needed: whether an authentication line is longer
    than the largest int shows in the result. *)
Example C92_bound_needed : exists i m c1 c2 e x, cr_method c1 = cr_method c2 /\
  let before c := wbefore [ONew KPlain server 25; OSetCred i c] e x in
  fst (wstep (OSend i m) (before c1)) <> fst (wstep (OSend i m) (before c2)).
Proof.
  destruct (any_length INT_MAX) as [u U].
  assert (L : (INT_MAX <? slen (cstr (plain_command (mkCred u [] kImplicit))))%N = true).
  { apply N.ltb_lt. rewrite cstr_plain. unfold plain_command. cbn [cr_user cr_pass]. rewrite !slen_app, encode_length, !slen_app, U. vm_compute. reflexivity. }
  exists 0%nat, hi, (mkCred (B "joe") (B "secret") kImplicit), (mkCred u [] kImplicit), (wire plain_offer), windows. split; [reflexivity|]. cbv zeta.
  destruct (long_auth (mkCred u [] kImplicit) eq_refl L) as (w' & E & _). cbv zeta in E. rewrite E. cbn [fst].
  assert (J : fst (wstep (OSend 0 hi) (wbefore [ONew KPlain server 25; OSetCred 0 (mkCred (B "joe") (B "secret") kImplicit)] (wire plain_offer) windows)) = Blocked) by (vm_compute; reflexivity).
  rewrite J. discriminate.
Qed.
