(** C100 and C101: what SMTP asks of the bytes of a mail. *)

From Coq Require Import Ascii String List NArith ZArith Bool.
From Verif Require Import Base ModelBase64 ModelAddress ModelAttachment ModelMessage ModelState ModelClient ModelWorld
  SpecAddress SpecReply SpecText SpecMime SpecTls SpecDialogue SpecWire Samples Lib ProofWire ProofWire2 PropsMail.
Import ListNotations.
Open Scope Z_scope.

(** ** C100 *)

(** C100, for every program: if the texts of the messages are 7-bit, everything
    the clients ever write is, in clear and over TLS, whatever the attached
    files and the credentials contain and whatever the servers do.  Missing:
    messages with other texts, which the library accepts. *)
Theorem C100_seven_bit_partial : forall ops e,
  (forall i m, In (OSend i m) ops -> plain_message m) ->
  forall ev d, In ev (w_trace (snd (run ops (initial_world e)))) -> writes d ev -> seven_bit d.
Proof. exact everything_seven. Qed.
Print Assumptions C100_seven_bit_partial.

(** C100, for every run: if the line breaks of the body are CRLF and the header
    texts have none, every complete line that follows DATA is free of CR and
    LF, whatever the attached files contain. *)
Theorem C100_line_breaks_partial : forall i c m w x w' t,
  get_client w i = Some c -> w_trace w' = w_trace w ++ t -> step (OSend i m) w = (x, w') -> text_ok m ->
  even_message m ->
  exists conn mail, phases (c_conn c) t conn mail /\
  forall before r after, mail = before ++ (DATA_line, r) :: after -> ~ In DATA_line (map fst before) ->
  exists texts, with_quits texts (map fst after) /\ Forall unbroken (completed (concat texts)).
Proof. exact run_even. Qed.
Print Assumptions C100_line_breaks_partial.

(** A network and a file system with one file. *)
Definition store (contents : str) : env :=
  mkEnv (hello ++ mail_replies) [] [] [] [SkFd 3] [] [] [] [] [] []
    (fun f => if str_eqb f (B "/a.png") then Some contents else None) (fun _ => B "error") (fun _ => B "bad certificate") 0.
Definition byte (n : N) : ascii := ascii_of_N n.
Definition pic : arr attachment := AArr [mkAtt (B "pic") (B "/a.png") (B "id1")].
Definition two_lines : message := Samples.letter (B "one" ++ CRLF ++ B "two") pic.
Definition binary : str := [byte 255; CR; LF; LF; NUL; byte 128; CR].
Ltac plain_checked := repeat (apply Forall_cons; [repeat (apply Forall_cons; [reflexivity|]); apply Forall_nil|]); apply Forall_nil.
Ltac even_checked := split; repeat (apply Forall_cons; [split; absent|]); apply Forall_nil.

Example C100_example : exists c w' t, get_client (before_send (store binary)) 0 = Some c /\
  sent (store binary) two_lines = (Done 0, w') /\ w_trace w' = w_trace (before_send (store binary)) ++ t /\
  plain_message two_lines /\ even_message two_lines /\ text_ok two_lines /\
  In (B "/w0KCgCADQ==") (lines (concat (written t))).
Proof.
  eexists _, _, _. split; [vm_compute; reflexivity|]. split; [vm_compute; reflexivity|]. split; [vm_compute; reflexivity|].
  split; [plain_checked|]. split; [even_checked|]. split; [text_checked|]. vm_compute. member.
Qed.

(** C100 fails: the bytes of a body are sent as they are (the library never asks
    whether the server takes 8-bit text). *)
Definition accented : message := Samples.letter [byte 233] (ANull 0).
Theorem C100_eight_bit_refuted : exists w' t d, sent good accented = (Done 0, w') /\
  w_trace w' = w_trace (before_send good) ++ t /\ text_ok accented /\ In d (written t) /\ ~ seven_bit d.
Proof.
  eexists _, _. match goal with |- exists d, _ /\ _ => idtac end.
  exists (body_text files accented).
  split; [vm_compute; reflexivity|]. split; [vm_compute; reflexivity|]. split; [text_checked|]. split; [vm_compute; member|].
  intros H. unfold seven_bit in H. rewrite Forall_forall in H. specialize (H (byte 233)).
  assert (X : ascii7 (byte 233)) by (apply H; vm_compute; member). discriminate X.
Qed.
Print Assumptions C100_eight_bit_refuted.

(** And a body with bare LF is sent with bare LF. *)
Definition unix_text : message := Samples.letter (B "one" ++ [LF] ++ B "two") (ANull 0).
Theorem C100_bare_line_feed_refuted : exists w' t line, sent good unix_text = (Done 0, w') /\
  w_trace w' = w_trace (before_send good) ++ t /\ text_ok unix_text /\
  In line (completed (concat (written t))) /\ ~ unbroken line.
Proof.
  eexists _, _, (m_body unix_text).
  split; [vm_compute; reflexivity|]. split; [vm_compute; reflexivity|]. split; [text_checked|]. split; [vm_compute; member|].
  intros [_ H]. apply H. vm_compute. member.
Qed.
Print Assumptions C100_bare_line_feed_refuted.

(** ** C101 *)

(** C101, for every text: exactly when all lines of a mail are within SMTP's
    limit, given that the files are shorter than 4 GiB.  The library breaks
    base64 text every 64 KiB only, so a file may have 747 bytes at most. *)
Theorem C101_lines_partial : forall fs m, Forall (file_up_to 4294967295 fs) (listed (m_atts m)) ->
  (Forall fits (lines (mail_text fs m)) <-> short_texts m /\ Forall (file_up_to 747 fs) (listed (m_atts m))).
Proof. exact text_fits. Qed.
Print Assumptions C101_lines_partial.

(** C101, for every run: if the texts of the message are short, no complete line
    after DATA exceeds 64 KiB whatever the files; and none exceeds SMTP's limit
    if every file has at most 747 bytes. *)
Theorem C101_run_partial : forall i c m w x w' t,
  get_client w i = Some c -> w_trace w' = w_trace w ++ t -> step (OSend i m) w = (x, w') -> text_ok m ->
  short_texts m ->
  exists conn mail, phases (c_conn c) t conn mail /\
  forall before r after, mail = before ++ (DATA_line, r) :: after -> ~ In DATA_line (map fst before) ->
  exists texts, with_quits texts (map fst after) /\
    Forall (fun l => (slen l <= 65536)%N) (completed (concat texts)) /\
    (Forall (file_up_to 747 (e_fs (w_env w))) (listed (m_atts m)) -> Forall fits (completed (concat texts))).
Proof. exact run_short. Qed.
Print Assumptions C101_run_partial.

Ltac short_checked := repeat split; repeat (apply Forall_cons; [repeat (apply Forall_cons; [vm_compute; discriminate|]); try apply Forall_nil; vm_compute; discriminate|]); apply Forall_nil.
Definition zeros (n : nat) : str := repeat NUL n.
Example C101_example : exists c w' t, get_client (before_send (store (zeros 747))) 0 = Some c /\
  sent (store (zeros 747)) two_lines = (Done 0, w') /\ w_trace w' = w_trace (before_send (store (zeros 747))) ++ t /\
  text_ok two_lines /\ short_texts two_lines /\ Forall (file_up_to 747 (e_fs (store (zeros 747)))) (listed (m_atts two_lines)).
Proof.
  eexists _, _, _. split; [vm_compute; reflexivity|]. split; [vm_compute; reflexivity|]. split; [vm_compute; reflexivity|].
  split; [text_checked|]. split; [short_checked|]. apply Forall_cons; [|apply Forall_nil]. intros contents H. vm_compute in H.
  injection H as <-. vm_compute. discriminate.
Qed.

(** C101 fails: with a file of 748 bytes, a line longer than SMTP allows is sent. *)
Theorem C101_long_line_refuted : exists w' t line,
  sent (store (zeros 748)) two_lines = (Done 0, w') /\ w_trace w' = w_trace (before_send (store (zeros 748))) ++ t /\
  text_ok two_lines /\ short_texts two_lines /\ In line (completed (concat (written t))) /\ ~ fits line.
Proof.
  eexists _, _, (Encode (zeros 748)).
  split; [vm_compute; reflexivity|]. split; [vm_compute; reflexivity|]. split; [text_checked|]. split; [short_checked|].
  split; [|intros H; vm_compute in H; now apply H].
  match goal with |- In ?x ?l => assert (E : existsb (str_eqb x) l = true) by (vm_compute; reflexivity) end.
  apply existsb_exists in E as (y & I & E). apply str_eqb_eq in E. rewrite E. exact I.
Qed.
Print Assumptions C101_long_line_refuted.
