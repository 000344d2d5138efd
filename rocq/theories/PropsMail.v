(** C27 - C30, C35, C40, C55 - C57: sending a mail, read off the dialogue with
    the server.  [t] is what happened during the step. *)

From Coq Require Import Ascii String List NArith ZArith Bool.
From Verif Require Import Base ModelAddress ModelAttachment ModelMessage ModelState ModelClient ModelWorld
  SpecAddress SpecReply SpecMime SpecTls SpecDialogue SpecLife Samples ProofAddress ProofMail5 ProofMail4 ProofBcc.
Import ListNotations.
Open Scope Z_scope.

(** Tactics for the examples. *)
Ltac member := repeat (try (left; reflexivity); right).
Ltac standard_run := let H := fresh in intros ? ? H; vm_compute in H;
  repeat (destruct H as [H|H]; [inversion H; subst; first [left; reflexivity | right; eexists _, _; split; [reflexivity|member]]|]); destruct H.
Ltac each_event := let H := fresh in intros ? H; vm_compute in H;
  repeat (destruct H as [<-|H]; [first [exact I | reflexivity]|]); destruct H.
Ltac absent := let H := fresh in intros H; vm_compute in H; repeat (destruct H as [H|H]; [discriminate H|]); destruct H.
Ltac text_checked := constructor; repeat constructor; absent.

(** ** C27 *)

(** A program that creates a client and sends [m], its world before the send,
    and the events of the send. *)
Definition before_send (e : env) : world := snd (run [ONew KPlain server 25] (initial_world e)).
Definition sent (e : env) (m : message) : outcome Z * world := step (OSend 0 m) (before_send e).

(** C27: with a server that uses the reply codes of RFC 5321, 0 means that the
    end of data was answered 250 (QUIT may follow).  Missing: replies that begin
    with "000". *)
Theorem C27_success_was_acknowledged_partial : forall i c m w w' t,
  get_client w i = Some c -> w_trace w' = w_trace w ++ t ->
  step (OSend i m) w = (Done 0, w') -> standard t ->
  exists before r, exchanges t = before ++ (END_line, r) :: (if c_batch c then [] else [(QUIT_line, [])]) /\
    answered "250" (END_line, r).
Proof. exact world_end. Qed.
Print Assumptions C27_success_was_acknowledged_partial.

Definition good : env := wire (hello ++ mail_replies).
Example C27_example : exists c w' t, get_client (before_send good) 0 = Some c /\
  sent good hi = (Done 0, w') /\ w_trace w' = w_trace (before_send good) ++ t /\ standard t /\ fields_written t /\ text_ok hi /\
  length (exchanges t) = 11%nat.
Proof.
  eexists _, _, _. split; [vm_compute; reflexivity|]. split; [vm_compute; reflexivity|]. split; [vm_compute; reflexivity|].
  split; [standard_run|]. split; [each_event|]. split; [text_checked|]. vm_compute. reflexivity.
Qed.

(** C27 fails: "000" in answer to the end of data counts as success. *)
Theorem C27_unacknowledged_success_refuted : exists e w' t before r,
  sent e hi = (Done 0, w') /\ w_trace w' = w_trace (before_send e) ++ t /\
  exchanges t = before ++ [(END_line, r)] /\ ~ answered "250" (END_line, r).
Proof.
  exists (wire (hello ++ said "250 ok" ++ said "250 ok" ++ said "354 go" ++ said "000 no")).
  eexists _, _.
  match goal with |- exists _ _, _ /\ _ /\ exchanges ?l = _ /\ _ => exists (removelast (exchanges l)) end.
  exists (B "000 no" ++ CRLF).
  split; [vm_compute; reflexivity|]. split; [vm_compute; reflexivity|]. split; [vm_compute; reflexivity|].
  intros [r X]. discriminate X.
Qed.
Print Assumptions C27_unacknowledged_success_refuted.

(** ** C28 *)

(** C28: when a RCPT of the mail is not answered 250, DATA is not sent and 0 is
    not returned.  (RCPT lines are those before DATA: a body may contain the
    same text.)  Missing: replies that begin with "000". *)
Theorem C28_refused_recipient_partial : forall i c m w w' t,
  get_client w i = Some c -> w_trace w' = w_trace w ++ t ->
  forall x, step (OSend i m) w = (x, w') -> standard t ->
  exists conn mail, phases (c_conn c) t conn mail /\
  forall a reply before after, mail = before ++ (rcpt_line a, reply) :: after -> ~ In DATA_line (map fst before) ->
  ~ answered "250" (rcpt_line a, reply) -> ~ In DATA_line (map fst after) /\ x <> Done 0.
Proof. exact world_refused. Qed.
Print Assumptions C28_refused_recipient_partial.

(** The first of two recipients is refused. *)
Definition one_refused : env := wire (hello ++ said "250 ok" ++ said "550 unknown" ++ said "250 ok").
Example C28_example : exists w' t, sent one_refused two_recipients = (Done 550, w') /\
  w_trace w' = w_trace (before_send one_refused) ++ t /\ standard t /\
  exchanges t = [(B "ehlo localhost" ++ CRLF, B "250 ok" ++ CRLF)] ++
    [(B "MAIL FROM: <joe@example.com>" ++ CRLF, B "250 ok" ++ CRLF)] ++
    (rcpt_line jane, B "550 unknown" ++ CRLF) :: [(rcpt_line joe, B "250 ok" ++ CRLF)].
Proof.
  eexists _, _. split; [vm_compute; reflexivity|]. split; [vm_compute; reflexivity|].
  split; [standard_run|]. vm_compute. reflexivity.
Qed.

(** C28 fails: after a refused recipient and one answered "000" the mail is
    sent. *)
Theorem C28_refused_recipient_refuted : exists e w' t before after,
  sent e two_recipients = (Done 0, w') /\ w_trace w' = w_trace (before_send e) ++ t /\
  exchanges t = before ++ (rcpt_line jane, B "550 no" ++ CRLF) :: after /\
  In DATA_line (map fst after).
Proof.
  exists (wire (hello ++ said "250 ok" ++ said "550 no" ++ said "000 x" ++ said "354 go" ++ said "250 ok")).
  eexists _, _.
  match goal with |- exists _ _, _ /\ _ /\ exchanges ?l = _ /\ _ => exists (firstn 2 (exchanges l)), (skipn 3 (exchanges l)) end.
  split; [vm_compute; reflexivity|]. split; [vm_compute; reflexivity|]. split; [vm_compute; reflexivity|].
  vm_compute. member.
Qed.
Print Assumptions C28_refused_recipient_refuted.

(** ** C29 *)

(** C29: after 0, an accepted sender and one RCPT per recipient, in order, each
    answered 250, were written before DATA.  Missing: "000" replies. *)
Theorem C29_recipients_announced_partial : forall i c m w w' t,
  get_client w i = Some c -> w_trace w' = w_trace w ++ t ->
  step (OSend i m) w = (Done 0, w') -> text_ok m -> standard t ->
  exists conn mail, phases (c_conn c) t conn mail /\ announced_mail m mail.
Proof. exact world_announced. Qed.
Print Assumptions C29_recipients_announced_partial.

(** C29: and the whole dialogue was that of an accepted mail, unless writing the
    To or Cc line failed, which the library ignores. *)
Theorem C29_dialogue_partial : forall i c m w w' t,
  get_client w i = Some c -> w_trace w' = w_trace w ++ t ->
  step (OSend i m) w = (Done 0, w') -> text_ok m -> standard t -> fields_written t ->
  exists conn mail, phases (c_conn c) t conn mail /\ accepted_mail (e_fs (w_env w)) m (c_batch c) mail.
Proof. exact world_accepted. Qed.
Print Assumptions C29_dialogue_partial.

(** To, Cc and Bcc recipients. *)
Definition everyone : message :=
  mkMsg Plaintext joe (AArr [jane]) (AArr [mkAddr (B "cc@example.com") []]) (AArr [mkAddr (B "bcc@example.com") []])
    (B "Hi") (B "hello") (ANull 0).
Definition three_ok : env :=
  wire (hello ++ said "250 ok" ++ said "250 ok" ++ said "250 ok" ++ said "250 ok" ++ said "354 go" ++ said "250 ok").
Example C29_example : exists w' t, sent three_ok everyone = (Done 0, w') /\
  w_trace w' = w_trace (before_send three_ok) ++ t /\ standard t /\ fields_written t /\ text_ok everyone /\
  map (firstn 4) (firstn 6 (written t)) = map B ["ehlo"; "MAIL"; "RCPT"; "RCPT"; "RCPT"; "DATA"]%string.
Proof.
  eexists _, _. split; [vm_compute; reflexivity|]. split; [vm_compute; reflexivity|].
  split; [standard_run|]. split; [each_event|]. split; [text_checked|]. vm_compute. reflexivity.
Qed.

(** C29 fails: a To recipient answered "000" makes the library forget the Cc
    and Bcc recipients and report success. *)
Theorem C29_forgotten_recipients_refuted : exists e w' t,
  sent e everyone = (Done 0, w') /\ w_trace w' = w_trace (before_send e) ++ t /\
  ~ In (B "RCPT TO: <bcc@example.com>" ++ CRLF) (written t).
Proof.
  exists (wire (hello ++ said "250 ok" ++ said "000 x" ++ said "354 go" ++ said "250 ok")).
  eexists _, _. split; [vm_compute; reflexivity|]. split; [vm_compute; reflexivity|]. absent.
Qed.
Print Assumptions C29_forgotten_recipients_refuted.

(** ** C30 *)

(** C30, for every run: what is written after DATA is, line by line and in
    order, a beginning of a text determined by the message without its Bcc list
    (headers and body, or the body alone if DATA got an answer that is not an
    SMTP reply).  Lines QUIT come last; they come in between only if a To or Cc
    line could not be written. *)
Theorem C30_data_text : forall i c m w x w' t,
  get_client w i = Some c -> w_trace w' = w_trace w ++ t -> step (OSend i m) w = (x, w') -> text_ok m ->
  exists conn mail, phases (c_conn c) t conn mail /\
  forall before r after, mail = before ++ (DATA_line, r) :: after -> ~ In DATA_line (map fst before) ->
  exists texts, with_quits texts (map fst after) /\
    (fields_written t -> exists quits, map fst after = texts ++ quits /\ Forall (eq QUIT_line) quits) /\
    (starts_with (concat texts) (mail_text (e_fs (w_env w)) (without_bcc m) ++ END_line) \/
     (~ standard_reply r /\ starts_with (concat texts) (body_text (e_fs (w_env w)) (without_bcc m) ++ END_line))).
Proof. exact (fun i c m w x w' t G T => world_data_texts i c m w w' t G T x). Qed.
Print Assumptions C30_data_text.

(** C30, for every pair of runs: two mails that differ in Bcc only are
    transmitted with the same text, as far as both were transmitted. *)
Theorem C30_same_text : forall i c m w x w' t j d m2 u y u' t2,
  get_client w i = Some c -> w_trace w' = w_trace w ++ t -> step (OSend i m) w = (x, w') -> text_ok m ->
  get_client u j = Some d -> w_trace u' = w_trace u ++ t2 -> step (OSend j m2) u = (y, u') -> text_ok m2 ->
  without_bcc m2 = without_bcc m -> e_fs (w_env u) = e_fs (w_env w) ->
  exists conn mail conn2 mail2, phases (c_conn c) t conn mail /\ phases (c_conn d) t2 conn2 mail2 /\
  forall before r after before2 r2 after2,
    mail = before ++ (DATA_line, r) :: after -> ~ In DATA_line (map fst before) -> standard_reply r ->
    mail2 = before2 ++ (DATA_line, r2) :: after2 -> ~ In DATA_line (map fst before2) -> standard_reply r2 ->
  exists texts texts2, with_quits texts (map fst after) /\ with_quits texts2 (map fst after2) /\
    (starts_with (concat texts) (concat texts2) \/ starts_with (concat texts2) (concat texts)).
Proof. exact (fun i c m w x w' t j d m2 u y u' t2 => world_bcc_any i c m w w' t j d m2 u u' t2 x y). Qed.
Print Assumptions C30_same_text.

(** C30: every line written after DATA is one of the message without its Bcc
    list. *)
Theorem C30_no_bcc_after_data : forall i c m w w' t,
  get_client w i = Some c -> w_trace w' = w_trace w ++ t ->
  forall x, step (OSend i m) w = (x, w') ->
  exists conn mail, phases (c_conn c) t conn mail /\
  forall before r after, mail = before ++ (DATA_line, r) :: after -> ~ In DATA_line (map fst before) ->
  forall d h, In (d, h) after -> exists line, clear_line (e_fs (w_env w)) (without_bcc m) line /\ d = cstr line.
Proof. exact world_data_lines. Qed.
Print Assumptions C30_no_bcc_after_data.

(** C30: two accepted mails that differ in Bcc only have the same data text. *)
Theorem C30_accepted_same_text : forall i c m w w' t j d m2 u u' t2,
  get_client w i = Some c -> w_trace w' = w_trace w ++ t -> step (OSend i m) w = (Done 0, w') -> text_ok m -> standard t -> fields_written t ->
  get_client u j = Some d -> w_trace u' = w_trace u ++ t2 -> step (OSend j m2) u = (Done 0, u') -> text_ok m2 -> standard t2 -> fields_written t2 ->
  without_bcc m2 = without_bcc m -> e_fs (w_env u) = e_fs (w_env w) ->
  exists before r1 texts r2 after before' r1' texts' r2' after',
    exchanges t = before ++ (DATA_line, r1) :: silent texts ++ (END_line, r2) :: after /\
    exchanges t2 = before' ++ (DATA_line, r1') :: silent texts' ++ (END_line, r2') :: after' /\
    concat texts = concat texts'.
Proof. exact world_bcc. Qed.
Print Assumptions C30_accepted_same_text.

(** The runs of C29_example (with Bcc) and of the same mail without Bcc. *)
Definition two_ok : env :=
  wire (hello ++ said "250 ok" ++ said "250 ok" ++ said "250 ok" ++ said "354 go" ++ said "250 ok").
Example C30_example : exists w' t, sent two_ok (without_bcc everyone) = (Done 0, w') /\
  w_trace w' = w_trace (before_send two_ok) ++ t /\ standard t /\ fields_written t /\ text_ok (without_bcc everyone) /\
  length (written t) = 13%nat.
Proof.
  eexists _, _. split; [vm_compute; reflexivity|]. split; [vm_compute; reflexivity|].
  split; [standard_run|]. split; [each_event|]. split; [text_checked|]. vm_compute. reflexivity.
Qed.

(** A batch client whose To line cannot be written: a line QUIT comes between. *)
Definition broken_to : env := network [SkFd 3] (hello ++ said "250 ok" ++ said "250 ok" ++ said "250 ok" ++ said "250 ok" ++ said "354 go" ++ said "250 queued")
  [] (repeat WFull 7 ++ [WErr 32]) [] [].
Definition batch_client (e : env) : world := snd (run [ONew KPlain server 25; OSetBatch 0 true] (initial_world e)).
Example C30_quit_example : exists w' t, step (OSend 0 everyone) (batch_client broken_to) = (Done 0, w') /\
  w_trace w' = w_trace (batch_client broken_to) ++ t /\ text_ok everyone /\
  map (firstn 4) (written t) =
    map B ["ehlo"; "MAIL"; "RCPT"; "RCPT"; "RCPT"; "DATA"; "From"; "To: "; "QUIT"; "Cc: "; "Subj"; "Cont"; "--se"]%string ++ [firstn 4 END_line].
Proof.
  eexists _, _. split; [vm_compute; reflexivity|]. split; [vm_compute; reflexivity|]. split; [text_checked|]. vm_compute. reflexivity.
Qed.

(** ** C35 *)

(** C35: when names and subject contain no CRLF, the header section of the
    transmitted text is exactly the expected fields.  Missing: names and
    subjects with line breaks, which the library accepts. *)
Theorem C35_header_section_partial : forall i c m w w' t,
  get_client w i = Some c -> w_trace w' = w_trace w ++ t ->
  step (OSend i m) w = (Done 0, w') -> text_ok m -> header_ok m -> standard t -> fields_written t ->
  exists before r1 texts r2 after, exchanges t = before ++ (DATA_line, r1) :: silent texts ++ (END_line, r2) :: after /\
    head_lines (lines (concat texts)) = header_fields m.
Proof. exact world_header. Qed.
Print Assumptions C35_header_section_partial.

Example C35_example : header_ok everyone /\ head_lines (lines (mail_text files everyone)) =
  map B ["From: Joe <joe@example.com>"; "To: jane@example.com"; "Cc: cc@example.com"; "Subject: Hi";
         "Content-Type: multipart/related; boundary=sep"]%string.
Proof.
  assert (V : forall e, address_new (Some e) (Some []) = Done (mkAddr e []) -> valid_address e).
  { intros e H. apply address_new_done in H as [H E]. apply (f_equal a_email) in E. cbn [a_email] in E. rewrite <- E in H. exact H. }
  split; [|vm_compute; reflexivity].
  repeat split; try (apply single_clean; absent); try (apply V; vm_compute; reflexivity);
    repeat constructor; try (apply single_clean; absent); apply V; vm_compute; reflexivity.
Qed.

(** C35 fails: a subject with a line break adds a field. *)
Definition two_line_subject : message :=
  mkMsg Plaintext joe (AArr [jane]) (ANull 0) (ANull 0) (B "Hi" ++ CRLF ++ B "Reply-To: eve@example.com") (B "hello") (ANull 0).
Theorem C35_header_injection_refuted : exists e w' t before r1 texts r2 after,
  sent e two_line_subject = (Done 0, w') /\ w_trace w' = w_trace (before_send e) ++ t /\
  exchanges t = before ++ (DATA_line, r1) :: silent texts ++ (END_line, r2) :: after /\
  In (B "Reply-To: eve@example.com") (head_lines (lines (concat texts))).
Proof.
  exists good. eexists _, _.
  match goal with |- exists _ _ _ _ _, _ /\ _ /\ exchanges ?l = _ /\ _ =>
    exists (firstn 3 (exchanges l)), (B "354 go" ++ CRLF), (firstn 5 (skipn 4 (written l))), (B "250 queued" ++ CRLF), (skipn 10 (exchanges l)) end.
  split; [vm_compute; reflexivity|]. split; [vm_compute; reflexivity|]. split; [vm_compute; reflexivity|]. vm_compute. member.
Qed.
Print Assumptions C35_header_injection_refuted.

(** ** C40 *)

(** C40, normal mode: QUIT is the last thing written, its connection is closed
    afterwards and the client is disconnected. *)
Theorem C40_normal_mode_partial : forall i c m w w' t,
  get_client w i = Some c -> w_trace w' = w_trace w ++ t ->
  step (OSend i m) w = (Done 0, w') -> c_batch c = false -> standard t -> fields_written t ->
  (exists t1 ev t2, t = t1 ++ ev :: t2 /\ writes QUIT_line ev /\ written t2 = [] /\ closed_in t2 ev) /\
  exists c', get_client w' i = Some c' /\ c_conn c' = false /\ c_sock c' = 0.
Proof. exact world_normal. Qed.
Print Assumptions C40_normal_mode_partial.

(** C40, batch mode: the last thing written is the end of the mail, on the
    connection the client still holds. *)
Theorem C40_batch_mode_partial : forall i c m w w' t,
  get_client w i = Some c -> w_trace w' = w_trace w ++ t ->
  step (OSend i m) w = (Done 0, w') -> c_batch c = true -> standard t -> fields_written t ->
  exists c', get_client w' i = Some c' /\ c_conn c' = true /\
  exists t1 ev t2, t = t1 ++ ev :: t2 /\ written_on c' END_line ev /\ written t2 = [] /\ (forall e, In e t2 -> ~ closing_event e).
Proof. exact world_batch. Qed.
Print Assumptions C40_batch_mode_partial.

(** C40 fails in normal mode if the mail is acknowledged with "000": it is
    reported as sent and QUIT is not written. *)
Theorem C40_no_quit_refuted : exists w c w' t, get_client w 0 = Some c /\ c_batch c = false /\
  step (OSend 0 hi) w = (Done 0, w') /\ w_trace w' = w_trace w ++ t /\ fields_written t /\ ~ In QUIT_line (written t).
Proof.
  exists (before_send (wire (hello ++ said "250 ok" ++ said "250 ok" ++ said "354 go" ++ said "000 queued"))).
  eexists _, _, _. split; [vm_compute; reflexivity|]. split; [reflexivity|]. split; [vm_compute; reflexivity|].
  split; [vm_compute; reflexivity|]. split; [each_event|]. absent.
Qed.
Print Assumptions C40_no_quit_refuted.

(** C40 fails in batch mode if the To line cannot be written: the mail is
    reported as sent and the client has closed its connection. *)
Theorem C40_batch_closed_refuted : exists w c w' c' t, get_client w 0 = Some c /\ c_batch c = true /\
  step (OSend 0 hi) w = (Done 0, w') /\ w_trace w' = w_trace w ++ t /\ standard t /\
  get_client w' 0 = Some c' /\ c_conn c' = false /\ c_sock c' = 0.
Proof.
  exists (batch_client (network [SkFd 3] (hello ++ mail_replies) [] (repeat WFull 5 ++ [WErr 32]) [] [])).
  eexists _, _, _, _. split; [vm_compute; reflexivity|]. split; [reflexivity|]. split; [vm_compute; reflexivity|].
  split; [vm_compute; reflexivity|]. split; [standard_run|]. split; [vm_compute; reflexivity|]. split; reflexivity.
Qed.
Print Assumptions C40_batch_closed_refuted.

(** C40: a connected client does not connect again, whatever happens. *)
Theorem C40_connection_reused : forall i c m w w' t,
  get_client w i = Some c -> w_trace w' = w_trace w ++ t ->
  forall x, step (OSend i m) w = (x, w') -> c_conn c = true -> forall ev, In ev t -> ~ opening_event ev.
Proof. exact world_reuse. Qed.
Print Assumptions C40_connection_reused.

(** C40: destroying a client sends QUIT if it holds a batch connection, and
    closes what it holds. *)
Theorem C40_destroy : forall i c w w' t,
  get_client w i = Some c -> w_trace w' = w_trace w ++ t ->
  step (ODestroy i) w = (Done 0, w') ->
  (c_batch c = true -> c_conn c = true -> In QUIT_line (written t)) /\
  (c_sock c = 0 \/ In (EvClose (c_sock c)) t) /\
  (c_kind c <> KPlain -> (forall b, c_bio c = Some b -> In (EvBioFree (bio_id b)) t) /\
     (forall k, c_ctx c = Some k -> In (EvCtxFree k) t)).
Proof. exact world_destroy. Qed.
Print Assumptions C40_destroy.

(** Two mails in batch mode, then the destructor. *)
Example C40_example : let ops := [ONew KPlain server 25; OSetBatch 0 true; OSend 0 hi] in
  let e := wire (hello ++ mail_replies ++ mail_replies) in
  (exists c, get_client (snd (run ops (initial_world e))) 0 = Some c /\ c_conn c = true /\ c_batch c = true /\ c_sock c = 3) /\
  result (ops ++ [OSend 0 hi; ODestroy 0]) e = [Done 0; Done 0; Done 0; Done 0; Done 0] /\
  length (filter (fun ev => match ev with EvSocket _ => true | _ => false end) (events (ops ++ [OSend 0 hi; ODestroy 0]) e)) = 1%nat /\
  last (events (ops ++ [OSend 0 hi; ODestroy 0]) e) (EvSleep 0) = EvClose 3.
Proof.
  vm_compute. split; [eexists; repeat split|]. split; [reflexivity|]. split; reflexivity.
Qed.

(** ** C55 *)

(** C55: the sender formats are tried in order, a next one only after 501; any
    other answer than 250 ends the mail (QUIT may follow) and is what is
    returned.  Missing: "000" replies. *)
Theorem C55_sender_formats_partial : forall i c m w w' t,
  get_client w i = Some c -> w_trace w' = w_trace w ++ t ->
  forall r, step (OSend i m) w = (Done r, w') -> text_ok m -> standard t ->
  exists conn mail, phases (c_conn c) t conn mail /\
  (mail = [] \/
   exists refused line reply rest more,
     mail = refused ++ (line, reply) :: rest /\ sender_lines (m_from m) = map fst refused ++ line :: more /\
     Forall (answered "501") refused /\
     (answered "250" (line, reply) \/
      (Forall (eq QUIT_line) (map fst rest) /\ (r = 501 -> more = []) /\ (100 <= r -> code_digits r reply)))).
Proof. exact world_sender. Qed.
Print Assumptions C55_sender_formats_partial.

Example C55_example :
  result [ONew KPlain server 25; OSend 0 hi] (wire (hello ++ said "501 a" ++ said "501 b" ++ mail_replies)) = [Done 0; Done 0] /\
  result [ONew KPlain server 25; OSend 0 hi] (wire (hello ++ said "501 a" ++ said "550 b")) = [Done 0; Done 550] /\
  result [ONew KPlain server 25; OSend 0 hi] (wire (hello ++ said "501 a" ++ said "501 b" ++ said "501 c")) = [Done 0; Done 501].
Proof. vm_compute. repeat split. Qed.

(** C55 fails: "000" in answer to MAIL is taken for an accepted sender. *)
Theorem C55_sender_not_accepted_refuted : exists e w' t before r after,
  sent e hi = (Done 0, w') /\ w_trace w' = w_trace (before_send e) ++ t /\
  exchanges t = before ++ (B "MAIL FROM: <joe@example.com>" ++ CRLF, r) :: after /\ starts_with (B "000") r /\
  In DATA_line (map fst after).
Proof.
  exists (wire (hello ++ said "000 no" ++ said "354 go" ++ said "250 ok")). eexists _, _.
  match goal with |- exists _ _ _, _ /\ _ /\ exchanges ?l = _ /\ _ => exists (firstn 1 (exchanges l)), (B "000 no" ++ CRLF), (skipn 2 (exchanges l)) end.
  split; [vm_compute; reflexivity|]. split; [vm_compute; reflexivity|]. split; [vm_compute; reflexivity|].
  split; [eexists; reflexivity|]. vm_compute. member.
Qed.
Print Assumptions C55_sender_not_accepted_refuted.

(** ** C56 *)

(** C56: an unreadable file is treated like an empty one: the accepted mail is
    that of the file system in which it is empty. *)
Theorem C56_unreadable_is_empty_partial : forall i c m w w' t,
  get_client w i = Some c -> w_trace w' = w_trace w ++ t ->
  step (OSend i m) w = (Done 0, w') -> text_ok m -> standard t -> fields_written t ->
  forall fs, (forall f, e_fs (w_env w) f = None -> fs f = Some []) -> (forall f x, e_fs (w_env w) f = Some x -> fs f = Some x) ->
  exists conn mail, phases (c_conn c) t conn mail /\ accepted_mail fs m (c_batch c) mail.
Proof. exact world_unreadable. Qed.
Print Assumptions C56_unreadable_is_empty_partial.

(** C56 fails: a mail with an unreadable attachment is reported as sent. *)
Definition with_missing_file : message := letter (B "hello") (AArr [mkAtt (B "/missing.png") (B "a.png") []]).
Theorem C56_unreadable_attachment_refuted : exists e w',
  e_fs e (B "/missing.png") = None /\ sent e with_missing_file = (Done 0, w').
Proof. exists good. eexists. split; vm_compute; reflexivity. Qed.
Print Assumptions C56_unreadable_attachment_refuted.

(** ** C57 *)

(** C57: if the system accepts every write in full, the bytes transmitted are
    the lines of the accepted dialogue.  Missing: partial writes. *)
Theorem C57_all_transmitted_partial : forall i c m w w' t,
  get_client w i = Some c -> w_trace w' = w_trace w ++ t ->
  step (OSend i m) w = (Done 0, w') -> text_ok m -> standard t -> full_writes t ->
  exists conn mail, phases (c_conn c) t conn mail /\ accepted_mail (e_fs (w_env w)) m (c_batch c) mail /\
    transmitted t = concat (map fst conn) ++ concat (map fst mail).
Proof. exact world_transmitted. Qed.
Print Assumptions C57_all_transmitted_partial.

Example C57_example : exists w' t, sent good hi = (Done 0, w') /\
  w_trace w' = w_trace (before_send good) ++ t /\ full_writes t /\ text_ok hi /\ standard t /\ length (transmitted t) = 262%nat.
Proof.
  eexists _, _. split; [vm_compute; reflexivity|]. split; [vm_compute; reflexivity|]. split; [each_event|]. split; [text_checked|]. split; [standard_run|]. vm_compute. reflexivity.
Qed.

(** C57 fails: after a short write of the body the mail is reported as sent and
    the rest of the body never was. *)
Theorem C57_short_write_refuted : exists e w' t,
  sent e hi = (Done 0, w') /\ w_trace w' = w_trace (before_send e) ++ t /\
  In (EvSend 3 (body_text files hi) (WPart 10)) t /\
  (length (transmitted t) < length (concat (written t)))%nat.
Proof.
  exists (network [SkFd 3] (hello ++ mail_replies) [] [WFull; WFull; WFull; WFull; WFull; WFull; WFull; WFull; WPart 10] [] []).
  eexists _, _. split; [vm_compute; reflexivity|]. split; [vm_compute; reflexivity|]. split; [vm_compute; member|]. vm_compute. repeat constructor.
Qed.
Print Assumptions C57_short_write_refuted.
