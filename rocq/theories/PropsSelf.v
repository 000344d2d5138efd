(** The setting about self-signed certificates (C107). *)

From Coq Require Import Ascii String List NArith ZArith Bool.
From Verif Require Import Base ModelUtil ModelAddress ModelMessage ModelState ModelClient ModelWorld ModelWin
  SpecSelf Samples ProofSelf2.
Import ListNotations.
Open Scope Z_scope.

(** C107.  Unless OpenSSL reports a self-signed certificate, two programs that
    differ only in what they set setAcceptSelfSignedCert to have the same
    results, do the same on the network and keep the same in their clients,
    the logs included. *)
Theorem C107_only_self_signed : forall ops1 ops2 e, no_self_signed e -> Forall2 same_call ops1 ops2 ->
  let a := run ops1 (initial_world e) in let b := run ops2 (initial_world e) in
  fst a = fst b /\ w_trace (snd a) = w_trace (snd b) /\
  forall i, match get_client (snd a) i, get_client (snd b) i with
            | Some c, Some d => same_but_setting c d
            | None, None => True
            | _, _ => False
            end.
Proof. exact setting_irrelevant. Qed.
Print Assumptions C107_only_self_signed.

(** The same for the Windows build. *)
Theorem C107_windows : forall ops1 ops2 e x, no_self_signed e -> Forall2 same_call ops1 ops2 ->
  let a := wrun ops1 (initial_wworld e x) in let b := wrun ops2 (initial_wworld e x) in
  fst a = fst b /\ ww_trace (snd a) = ww_trace (snd b) /\
  forall i, match get_client (ww (snd a)) i, get_client (ww (snd b)) i with
            | Some c, Some d => same_but_setting c d
            | None, None => True
            | _, _ => False
            end.
Proof. exact wsetting_irrelevant. Qed.
Print Assumptions C107_windows.

(** An expired certificate (10) is refused with either setting, and a good one is
    accepted; a self-signed one is accepted with one setting only. *)
Definition verified (v : Z) : tls_res := mkTls true true true true true true v true 0.
Definition mails (b : bool) : list op :=
  [ONew KOpp server 587; OSetSelfSigned 0 b; OSend 0 hi; OSend 0 hi; ODestroy 0].
Definition certificates (l : list Z) : env := tls_wire (tls_hello ++ tls_hello) (tls_ident ++ mail_replies) (map verified l).
Example C107_example :
  no_self_signed (certificates [10; 0]) /\ Forall2 same_call (mails true) (mails false) /\
  result (mails true) (certificates [10; 0]) = map (fun n => Done n) [0; 0; -58; 0; 0] /\
  result (mails true) (certificates [10; 18]) = map (fun n => Done n) [0; 0; -58; 0; 0] /\
  result (mails false) (certificates [10; 18]) = map (fun n => Done n) [0; 0; -58; -58; 0].
Proof.
  split; [repeat constructor; discriminate|]. split; [repeat constructor|]. split; [vm_compute; reflexivity|]. split; vm_compute; reflexivity.
Qed.
