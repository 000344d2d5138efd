(** Sample servers that agree with everything, for the examples of PropsForward. *)

From Coq Require Import Ascii String List NArith ZArith Bool.
From Verif Require Import Base ModelAddress ModelAttachment ModelMessage ModelState ModelReply ModelUtil ModelClient ModelWorld
  SpecText SpecReply SpecMime SpecDialogue SpecAuth SpecForward Samples ProofForward4.
Import ListNotations.
Open Scope Z_scope.

Ltac is_positive := apply positive_checked; vm_compute; reflexivity.
Ltac absent_here := let H := fresh in intros H; vm_compute in H; repeat (destruct H as [H|H]; [discriminate H|]); destruct H.
Definition reply (s : string) : str := B s ++ CRLF.
Definition answered_mail : list str := [reply "250 ok"; reply "250 ok"; reply "354 go"; reply "250 queued"].
Definition letter2 : message := letter (B "hello") (AArr [mkAtt (B "a.png") (B "/a.png") (B "a")]).
Lemma letter2_ok : text_ok letter2 /\ message_ok letter2.
Proof. split; [constructor; repeat constructor; absent_here|]. split; [|split]; intros X; try (exfalso; apply X; reflexivity); eexists; reflexivity. Qed.
Lemma answered_ok : mail_answers letter2 answered_mail.
Proof.
  exists (reply "250 ok"), [reply "250 ok"], (reply "354 go"), (reply "250 queued"). split; [reflexivity|]. split; [is_positive|]. split; [constructor; [is_positive|constructor]|].
  split; [reflexivity|]. split; is_positive.
Qed.
Lemma complete_lines : forall before last, (before = [] \/ exists b, before = b ++ CRLF) -> single_line last -> starts_with (B "250 ") last ->
  positive "250" (before ++ last ++ CRLF) -> complete (before ++ last ++ CRLF).
Proof. intros b l H1 H2 H3 H4. split; [exact H4|]. exists b, l. auto. Qed.

(** The answer to EHLO. *)
Definition ehlo_with_lines (l : list string) : str := concat (map (fun x => B "250-" ++ B x ++ CRLF) l) ++ B "250 HELP" ++ CRLF.
Definition plain_ehlo : str := ehlo_with_lines ["smtp.example.com"; "AUTH LOGIN XOAUTH2"]%string.
Definition opp_ehlo : str := ehlo_with_lines ["smtp.example.com"; "STARTTLS"]%string.
Definition poor_ehlo : str := ehlo_with_lines ["smtp.example.com"]%string.
Definition tls_ehlo : str := ehlo_with_lines ["smtp.example.com"; "AUTH LOGIN PLAIN"]%string.
Ltac is_complete n r := let x := eval vm_compute in r in change r with x;
  change x with (firstn (length x - 10) x ++ B "250 HELP" ++ CRLF); apply complete_lines;
  [right; exists (firstn (length x - 12) x); vm_compute; reflexivity|apply single_checked; vm_compute; reflexivity|exists (B "HELP"); reflexivity|is_positive].
Lemma plain_complete : complete plain_ehlo. Proof. is_complete 0 plain_ehlo. Qed.
Lemma opp_complete : complete opp_ehlo. Proof. is_complete 0 opp_ehlo. Qed.
Lemma poor_complete : complete poor_ehlo. Proof. is_complete 0 poor_ehlo. Qed.
Lemma tls_complete : complete tls_ehlo. Proof. is_complete 0 tls_ehlo. Qed.
Lemma not_auth : forall l, prefixb (B "250-AUTH") l = false -> prefixb (B "250 AUTH") l = false -> ~ auth_line l.
Proof. intros l H1 H2 [X|X]; apply Lib.prefixb_spec in X; congruence. Qed.
Lemma plain_prefers : preferred false plain_ehlo joe_cred Login.
Proof.
  apply (preferred_checked _ _ _ _ (B "250-AUTH LOGIN XOAUTH2")); [absent_here| |exists (B "250-smtp.example.com"); eexists; vm_compute; reflexivity|vm_compute; reflexivity].
  exists [B "250-smtp.example.com"], (CRLF ++ B "250 HELP" ++ CRLF). split; [vm_compute; reflexivity|]. split; [right; eexists; reflexivity|].
  split; [apply single_checked; vm_compute; reflexivity|]. split; [left; exists (B " LOGIN XOAUTH2"); reflexivity|]. intros l [<-|[]].
  split; [apply single_checked; vm_compute; reflexivity|apply not_auth; reflexivity].
Qed.
Lemma tls_prefers : preferred true tls_ehlo joe_cred Plain.
Proof.
  apply (preferred_checked _ _ _ _ (B "250-AUTH LOGIN PLAIN")); [absent_here| |exists (B "250-smtp.example.com"); eexists; vm_compute; reflexivity|vm_compute; reflexivity].
  exists [B "250-smtp.example.com"], (CRLF ++ B "250 HELP" ++ [CR]). split; [vm_compute; reflexivity|]. split; [right; eexists; reflexivity|].
  split; [apply single_checked; vm_compute; reflexivity|]. split; [left; exists (B " LOGIN PLAIN"); reflexivity|]. intros l [<-|[]].
  split; [apply single_checked; vm_compute; reflexivity|apply not_auth; reflexivity].
Qed.

(** A client, its server, and the replies. *)
Definition with_env (k : clientkind) (batch : bool) (e : env) : world :=
  snd (run [ONew k server 25; OSetCred 0 joe_cred; OSetBatch 0 batch] (initial_world e)).
Definition greeting : str := reply "220 ready".
Definition login_answers : list str := [reply "334 VXNlcm5hbWU6"; reply "334 UGFzc3dvcmQ6"; reply "235 ok"].
Definition plain_clear : list recv_res := RData greeting :: in_clear (plain_ehlo :: login_answers).
Definition poor_clear : list recv_res := RData greeting :: in_clear [poor_ehlo].
Definition opp_clear : list recv_res := RData greeting :: in_clear [opp_ehlo; reply "220 go"].
Definition opp_secure : list str := [tls_ehlo; reply "235 ok"].
Definition forced_secure : list str := [greeting; tls_ehlo; reply "235 ok"].
Definition plain_world : world := with_env KPlain false (wire (plain_clear ++ in_clear answered_mail)).
Definition poor_world : world := with_env KOpp true (wire (poor_clear ++ in_clear answered_mail)).
Definition opp_world : world := with_env KOpp false (tls_wire opp_clear (over_tls (opp_secure ++ answered_mail)) [good_tls]).
Definition forced_world : world := with_env KForced true (tls_wire [] (over_tls (forced_secure ++ answered_mail)) [good_tls]).
Definition kept_ops (k : clientkind) : list op := [ONew k server 25; OSetCred 0 joe_cred; OSetBatch 0 true; OSend 0 letter2].
Definition kept_env (k : clientkind) : env :=
  match k with
  | KPlain => wire (plain_clear ++ in_clear (answered_mail ++ answered_mail))
  | KOpp => tls_wire opp_clear (over_tls (opp_secure ++ answered_mail ++ answered_mail)) [good_tls]
  | KForced => tls_wire [] (over_tls (forced_secure ++ answered_mail ++ answered_mail)) [good_tls]
  end.
