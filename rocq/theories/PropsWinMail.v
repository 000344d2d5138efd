(** C88-C91: messages sent by the Windows build. *)

From Coq Require Import Ascii String List NArith ZArith Bool Lia.
From Verif Require Import Base ModelBase64 ModelUtil ModelAddress ModelAttachment ModelMessage ModelReply ModelErrors ModelState ModelClient ModelWorld
  SpecAddress SpecReply SpecMime SpecDialogue SpecDead SpecAuth Lib ProofBase64 ProofMime ProofMail3 ModelWin SpecWin ProofWinMail ProofWinLong SpecForward SpecWinForward ProofForward ProofDialogue ProofWin ProofWinSkip PropsMail PropsAuth PropsWin PropsWinMode Samples.
Import ListNotations.
Open Scope Z_scope.

(** Windows runs: what a program says, and the part of its last operation. *)
Definition wbefore (ops : list op) (e : env) (x : wenv) : wworld := snd (wrun ops (initial_wworld e x)).
Definition part (ops : list op) (o : op) (e : env) (x : wenv) : list wevent :=
  skipn (length (ww_trace (wbefore ops e x))) (ww_trace (snd (wstep o (wbefore ops e x)))).

(** ** C88: a text that is too long is reported *)

(** C88: if a message is reported as sent, the only texts left out for their
    size are To and Cc fields.  Missing: these fields, and servers that answer
    with a code below 200. *)
Theorem C88_too_long_reported_partial : forall ops e x i m w' t d, let w := snd (wrun ops (initial_wworld e x)) in
  wstep (OSend i m) w = (Done 0, w') -> ww_trace w' = ww_trace w ++ t -> standard (wtalk t) ->
  In (WTooLong d) t -> recipient_field d.
Proof. intros ops e x i m w' t d w S T St I. exact (proj1 (Forall_forall _ _) (send_told i m w w' t S T St) _ I). Qed.
Print Assumptions C88_too_long_reported_partial.
(** A case: a user name that makes the line AUTH PLAIN too long.  The attempt to
    send is reported as failed. *)
Definition plain_offer : list recv_res := told "220 ready" ++ [RData (B "250-AUTH PLAIN" ++ CRLF ++ B "250 ok" ++ CRLF); RErr 11].
Definition stages : W (Z * Z * Z) := r <# initializeSessionW ;; g <# base checkServerGreetings ;; i <# sendServerIdentificationW ;; wret (r, g, i).
Lemma plain_stages v v3 : stages v = (Done (0, 220, 250), v3) -> establishPlainW v = authenticate_if_neededW v3.
Proof.
  unfold stages, establishPlainW, wbind. destruct (initializeSessionW v) as [[r| | | | |] v1]; try discriminate.
  destruct (base checkServerGreetings v1) as [[g| | | | |] v2] eqn:G; try discriminate. destruct (sendServerIdentificationW v2) as [[i| | | | |] v4] eqn:S; try discriminate.
  intros H. injection H as -> -> -> ->. cbn [negb Z.eqb]. rewrite G. cbn. rewrite S. reflexivity.
Qed.
Lemma wget {A} (k : client -> W A) v : wbind (base getc) k v = k (v_c v) v.
Proof. destruct v. unfold wbind, base, getc. cbn. now rewrite app_nil_r. Qed.
Lemma send_plain m v : c_conn (v_c v) = false -> c_kind (v_c v) = KPlain ->
  sendMailW m v = wbind establishPlainW (fun r => if negb (r =? 0) then wret r else base (updc (set_conn true)) ;;# mail_transactionW m) v.
Proof. intros H K. unfold sendMailW. rewrite wget, H. unfold establishW, wbind at 1. rewrite wget, K. reflexivity. Qed.
Lemma auth_plain v cr o : c_cred (v_c v) = Some cr -> c_auth (v_c v) = Some o -> ao_plain o && method_ok (cr_method cr) kPlain = true ->
  authenticate_if_neededW v = wbind (authPlainW cr) (fun r => if negb (r =? STATUS_CODE_AUTHENTICATION_SUCCEEDED) then wret r else wret 0) v.
Proof. intros H K P. unfold authenticate_if_neededW. rewrite wget, H. unfold wbind at 1, authenticateClientW. rewrite wget, H, K, P. reflexivity. Qed.
Lemma long_auth : forall cr, cr_method cr = kImplicit -> (INT_MAX <? slen (cstr (plain_command cr)))%N = true ->
  let ops := [ONew KPlain server 25; OSetCred 0 cr] in
  exists w', wstep (OSend 0 hi) (wbefore ops (wire plain_offer) windows) = (Done CLIENT_AUTHENTICATE_ERROR, w') /\
  In (WTooLong (cstr (plain_command cr))) (ww_trace w').
Proof.
  intros [user pass me] M L ops. cbn in M. subst me. set (cr := mkCred user pass kImplicit) in *.
  assert (F : forall v, c_kind (v_c v) = KPlain -> sendFeedbackPtrW (plain_command cr) CLIENT_AUTHENTICATE_ERROR CLIENT_AUTHENTICATE_TIMEOUT v =
    (Done CLIENT_AUTHENTICATE_ERROR, mkV (v_c v) (v_on v) (v_e v) (v_w v) (v_t v ++ [WTooLong (cstr (plain_command cr))]))).
  { intros [c on e x t] K. cbn in K. unfold sendFeedbackPtrW, sendFeedbackW. assert (R : sendRaw3W (plain_command cr) CLIENT_AUTHENTICATE_ERROR CLIENT_AUTHENTICATE_TIMEOUT (mkV c on e x t) =
     (Done CLIENT_AUTHENTICATE_ERROR, mkV c on e x (t ++ [WTooLong (cstr (plain_command cr))]))).
    { unfold sendRaw3W, sendRaw2W. rewrite L. reflexivity. }
    unfold wbind, base, getc. cbn [fst snd s_c s_e s_t v_c v_e v_on v_w v_t map]. rewrite app_nil_r. destruct (c_rawptr c); [exact R|].
    cbn [fst snd s_c s_e s_t v_c v_e v_on v_w v_t map]. rewrite app_nil_r, K. exact R. }
  set (c0 := match client_new KPlain server 25 with Done c => set_cred (Some cr) c | _ => mkClient KPlain false None 0 false None 0 None 0 0 None None 0 false false None None false end).
  set (v0 := mkV c0 false (wire plain_offer) windows []).
  assert (Q : wbefore ops (wire plain_offer) windows = mkWW (mkWorld [Some c0] (wire plain_offer) []) [false] windows []) by (vm_compute; reflexivity).
  rewrite Q. clear Q. cbn [wstep]. unfold run_onW. cbn [get_client ww w_clients nth_error nth ww_on w_env ww_env ww_trace]. fold v0.
  eassert (E1 : stages v0 = (Done (0, 220, 250), _)) by (vm_compute; reflexivity).
  pose proof (send_plain hi v0 eq_refl eq_refl) as E2.
  rewrite E2. unfold wbind at 1. rewrite (plain_stages _ _ E1).
  match goal with |- context [authenticate_if_neededW ?v] => set (v3 := v) end.
  assert (E3 : authenticate_if_neededW v3 = wbind (authPlainW cr) (fun r => if negb (r =? STATUS_CODE_AUTHENTICATION_SUCCEEDED) then wret r else wret 0) v3) by (eapply auth_plain; reflexivity).
  rewrite E3. unfold authPlainW. unfold wbind. destruct (base (logc (B "AUTH PLAIN ***************" ++ CRLF)) v3) as [o v4] eqn:E4.
  assert (X : o = Done tt /\ c_kind (v_c v4) = KPlain) by (split; [change o with (fst (o, v4))|change v4 with (snd (o, v4))]; rewrite <- E4; vm_compute; reflexivity).
  destruct X as [-> K]. cbn [fst snd]. rewrite (F v4 K). cbn. eexists. split; [reflexivity|]. cbn. apply in_or_app. right. now left.
Qed.
Lemma cstr_plain cr : cstr (plain_command cr) = plain_command cr.
Proof.
  unfold plain_command. apply nn_cstr. intros I. apply in_app_or in I as [I|I]; [cbn in I; unfold NUL in I; intuition discriminate|]. apply in_app_or in I as [I|I].
  - rewrite <- encode_no_nul in I. revert I. generalize (Encode ([NUL] ++ cr_user cr ++ [NUL] ++ cr_pass cr)). intros s. induction s as [|a s IH]; cbn [cstr]; [exact id|].
    destruct (Ascii.eqb a NUL) eqn:E; [exact id|]. intros [->|I]; [discriminate|auto].
  - cbn in I; unfold NUL in I; intuition discriminate.
Qed.
Lemma any_length : forall n : N, exists s : str, slen s = n.
Proof.
  intros n. induction n as [|n [s IH]] using N.peano_ind; [now exists []|]. exists ("a"%char :: s). rewrite <- IH. unfold slen. cbn [length]. lia.
Qed.
Example C88_example : exists cr w' d, let ops := [ONew KPlain server 25; OSetCred 0 cr] in
  wstep (OSend 0 hi) (wbefore ops (wire plain_offer) windows) = (Done CLIENT_AUTHENTICATE_ERROR, w') /\ In (WTooLong d) (ww_trace w').
Proof.
  destruct (any_length INT_MAX) as [u U]. exists (mkCred u [] kImplicit).
  destruct (long_auth (mkCred u [] kImplicit) eq_refl) as (w' & E & I); [|eexists _, _; split; [exact E|exact I]].
  apply N.ltb_lt. rewrite cstr_plain. unfold plain_command. cbn [cr_user cr_pass]. rewrite !slen_app, encode_length, !slen_app, U.
  vm_compute. reflexivity.
Qed.

Lemma long_name : forall n : N, exists s : str, Forall (fun a => a = "a"%char) s /\ slen s = n.
Proof.
  intros n. induction n as [|n (s & A1 & A2)] using N.peano_ind; [exists []; split; [constructor|reflexivity]|]. exists ("a"%char :: s). split; [now constructor|].
  rewrite <- A2. unfold slen. cbn [length]. lia.
Qed.
Lemma str_mem : forall (x : str) l, existsb (str_eqb x) l = true -> In x l.
Proof. intros x l H. apply existsb_exists in H as (y & I & E). apply str_eqb_eq in E as ->. exact I. Qed.
(** A To field that is too long.  The field is left out, the rest of the message
    is sent, and sending is reported as a success.  ([stage1] is the part of
    sendMail before the To field.) *)
Lemma to_left_out u : Forall (fun a => a = "a"%char) u -> slen u = INT_MAX ->
  let e := wire (hello ++ mail_replies) in let w := wbefore [ONew KPlain server 25] e windows in
  let long := mkMsg Plaintext joe (AArr [mkAddr (B "jane@example.com") u]) (ANull 0) (ANull 0) (B "Hi") (B "hello") (ANull 0) in
  exists w', wstep (OSend 0 long) w = (Done 0, w') /\ In (WTooLong (B "To: " ++ u ++ B " <jane@example.com>" ++ CRLF)) (ww_trace w') /\
    exists before, written (wtalk (ww_trace w')) = before ++ map fst (rest_talk (B "250 queued" ++ CRLF)) /\ forallb (fun d => negb (str_eqb (firstn 3 d) (B "To:"))) before = true.
Proof.
  intros Ua Ul e w long.
  set (c0 := match client_new KPlain server 25 with Done c => c | _ => mkClient KPlain false None 0 false None 0 None 0 0 None None 0 false false None None false end).
  set (v0 := mkV c0 false e windows []).
  assert (Q : w = mkWW (mkWorld [Some c0] e []) [false] windows []) by (vm_compute; reflexivity).
  rewrite Q. clear Q. cbn [wstep]. unfold run_onW. cbn [get_client ww w_clients nth_error nth ww_on w_env ww_env ww_trace]. fold v0.
  eassert (E1 : stage1 u v0 = (Done (0, 0, 354, 0), _)) by (vm_compute; reflexivity).
  match type of E1 with _ = (_, ?v) => set (v3 := v) in * end.
  destruct (too_long_skipped u v0 v3 (B "250 queued" ++ CRLF) [] 100000 Ua Ul eq_refl eq_refl E1) as (v' & tp & tw & E & T & Wt & Tk).
  - vm_compute; reflexivity.
  - vm_compute; reflexivity.
  - vm_compute; reflexivity.
  - assert (L : exists lg, c_log (v_c v3) = Some lg /\ lg_cap lg = c_logsize (v_c v3) /\ (slen (lg_text lg) <? lg_cap lg)%N = true /\ (lg_cap lg <=? MAX_OBJECT)%N = true /\ (slen (lg_text lg) <=? 100000)%N = true).
    { eexists. split; [vm_compute; reflexivity|]. split; [vm_compute; reflexivity|]. split; [vm_compute; reflexivity|]. split; vm_compute; reflexivity. }
    destruct L as (lg & L1 & L2 & L3 & L4 & L5). apply N.ltb_lt in L3. apply N.leb_le in L4, L5. split; exists lg; auto.
  - discriminate.
  - repeat (split; [vm_compute; reflexivity|]). vm_compute; reflexivity.
  - repeat (split; [vm_compute; reflexivity|]). vm_compute; reflexivity.
  - vm_compute; reflexivity.
  - split; [eexists; vm_compute; reflexivity|]. split; [no_nuls|]. cbn. lia.
  - change (sendMailW long v0) with (sendMailW (ProofWinSkip.m u) v0). rewrite E. eexists. split; [reflexivity|]. cbn [ww_trace]. rewrite T. split.
    + apply in_or_app. right. left. f_equal. exact (line_eq u Ua Ul).
    + exists (written (wtalk (v_t v3))). split; [|vm_compute; reflexivity].
      unfold written. rewrite !wtalk_app, Wt. cbn [wtalk flat_map app].
      assert (D : ProofDialogue.talk (SpecWin.talk tp) (rest_talk (B "250 queued" ++ CRLF))) by (unfold ProofDialogue.talk; rewrite dialogue_talk; exact (proj1 Tk)).
      rewrite (exchanges_app _ _ _ D). apply map_app.
Qed.

(** C88 in full is false: a message is reported as sent although its To field was
    too long.  The server gets the message without a To field. *)
Theorem C88_to_field_refuted : exists ops e x i m w' d,
  wstep (OSend i m) (snd (wrun ops (initial_wworld e x))) = (Done 0, w') /\
  In (WTooLong d) (ww_trace w') /\ starts_with (B "To: ") d /\
  In END_line (written (wtalk (ww_trace w'))) /\
  forall line, In line (written (wtalk (ww_trace w'))) -> ~ starts_with (B "To: ") line.
Proof.
  destruct (long_name INT_MAX) as (u & Ua & Ul). destruct (to_left_out u Ua Ul) as (w' & E & I & before & X & F).
  eexists _, _, _, _, _, w', _. split; [exact E|]. split; [exact I|]. split; [eexists; reflexivity|]. rewrite X. split.
  - apply in_or_app. right. apply str_mem. vm_compute. reflexivity.
  - intros line L [y ->]. assert (Z : forallb (fun d => negb (str_eqb (firstn 3 d) (B "To:"))) (before ++ map fst (rest_talk (B "250 queued" ++ CRLF))) = true).
    { rewrite forallb_app. apply andb_true_intro. split; [exact F|vm_compute; reflexivity]. }
    rewrite forallb_forall in Z. specialize (Z _ L). discriminate Z.
Qed.
Print Assumptions C88_to_field_refuted.

(** ** C89: a message reported as sent *)

(** The client [c] sends [m] and 0 is returned.  The server uses the codes of
    RFC 5321, To and Cc fields are short enough, WSACleanup succeeds. *)
Definition sent_on_windows (ops : list op) (e : env) (x : wenv) (i : nat) (c : client) (m : message) (w' : wworld) (t : list wevent) : Prop :=
  get_client (ww (wbefore ops e x)) i = Some c /\ wstep (OSend i m) (wbefore ops e x) = (Done 0, w') /\
  ww_trace w' = ww_trace (wbefore ops e x) ++ t /\ standard (wtalk t) /\ fields_fit t /\ winsock_released t.
(** The files the library can read. *)
Definition disk (ops : list op) (e : env) (x : wenv) : filesystem := e_fs (w_env (ww (wbefore ops e x))).

(** C89: the end of data was answered 250. *)
Theorem C89_acknowledged_partial : forall ops e x i c m w' t, sent_on_windows ops e x i c m w' t ->
  exists before r, exchanges (wtalk t) = before ++ (END_line, r) :: (if c_batch c then [] else [(QUIT_line, [])]) /\
  answered "250" (END_line, r).
Proof. intros ops e x i c m w' t (G & S & T & St & Fi & Re). exact (win_end ops e x i m w' t c G T S St Fi Re). Qed.
Print Assumptions C89_acknowledged_partial.
(** C89: every recipient was announced and accepted before DATA. *)
Theorem C89_recipients_announced_partial : forall ops e x i c m w' t, sent_on_windows ops e x i c m w' t -> text_ok m ->
  exists conn mail, phases (c_conn c) (wtalk t) conn mail /\ announced_mail m mail.
Proof. intros ops e x i c m w' t (G & S & T & St & Fi & Re). exact (win_announced ops e x i m w' t c G T S St Fi Re). Qed.
Print Assumptions C89_recipients_announced_partial.
(** C89: the dialogue was that of an accepted mail, and no other bytes were
    transmitted if no write was short. *)
Theorem C89_dialogue_partial : forall ops e x i c m w' t, sent_on_windows ops e x i c m w' t -> text_ok m -> fields_written (wtalk t) ->
  exists conn mail, phases (c_conn c) (wtalk t) conn mail /\ accepted_mail (disk ops e x) m (c_batch c) mail.
Proof. intros ops e x i c m w' t (G & S & T & St & Fi & Re). exact (win_accepted ops e x i m w' t c G T S St Fi Re). Qed.
Print Assumptions C89_dialogue_partial.
Theorem C89_all_transmitted_partial : forall ops e x i c m w' t, sent_on_windows ops e x i c m w' t -> text_ok m -> full_writes (wtalk t) ->
  exists conn mail, phases (c_conn c) (wtalk t) conn mail /\ accepted_mail (disk ops e x) m (c_batch c) mail /\
    transmitted (wtalk t) = concat (map fst conn) ++ concat (map fst mail).
Proof. intros ops e x i c m w' t (G & S & T & St & Fi & Re). exact (win_transmitted ops e x i m w' t c G T S St Fi Re). Qed.
Print Assumptions C89_all_transmitted_partial.
(** C89: the header section is the expected fields. *)
Theorem C89_header_section_partial : forall ops e x i c m w' t, sent_on_windows ops e x i c m w' t -> text_ok m -> header_ok m -> fields_written (wtalk t) ->
  exists before r1 texts r2 after, exchanges (wtalk t) = before ++ (DATA_line, r1) :: silent texts ++ (END_line, r2) :: after /\
    head_lines (lines (concat texts)) = header_fields m.
Proof. intros ops e x i c m w' t (G & S & T & St & Fi & Re). exact (win_header ops e x i m w' t c G T S St Fi Re). Qed.
Print Assumptions C89_header_section_partial.

(** A case: To, Cc and Bcc recipients. *)
Definition wfirst : list op := [ONew KPlain server 25].
Definition wafter (ops : list op) (o : op) (e : env) (x : wenv) : wworld := snd (wstep o (wbefore ops e x)).
Definition small (t : list wevent) : bool := forallb (fun ev => match ev with WTooLong _ => false | WCleanup r => r =? 0 | _ => true end) t.
Lemma small_ok t : small t = true -> fields_fit t /\ winsock_released t.
Proof.
  intros H. split; [intros d I|intros r I]; apply (proj1 (forallb_forall _ _) H) in I; [discriminate|now apply Z.eqb_eq].
Qed.
Definition fullb (t : list event) : bool := forallb (fun ev => match ev with EvSend _ _ r | EvPuts _ _ r => match r with WFull => true | _ => false end | _ => true end) t.
Lemma full_checked t : fullb t = true -> full_writes t.
Proof. intros H ev I. apply (proj1 (forallb_forall _ _) H) in I. destruct ev; try exact Logic.I; destruct r; (reflexivity || discriminate). Qed.
Lemma full_fields t : full_writes t -> fields_written t.
Proof. intros H ev I. apply H in I. destruct ev; try exact Logic.I; subst r; exact Logic.I. Qed.
Definition standardb (t : list event) : bool :=
  forallb (fun x => match snd x with [] => true | c :: _ => existsb (Ascii.eqb c) ["2"%char; "3"%char; "4"%char; "5"%char] end) (exchanges t).
Lemma standard_checked t : standardb t = true -> standard t.
Proof.
  intros H c r I. apply (proj1 (forallb_forall _ _) H) in I. cbn [snd] in I. destruct r as [|a r]; [now left|]. right. exists a, r. split; [reflexivity|].
  apply existsb_exists in I as (y & I & E). apply Ascii.eqb_eq in E. now subst.
Qed.
Definition no_mailb (t : list event) : bool := forallb (fun d => negb (prefixb (B "MAIL FROM") d)) (written t).
Lemma no_mailb_ok t : no_mailb t = true -> before_mail t.
Proof. intros H d I M. apply (proj1 (forallb_forall _ _) H) in I. apply Lib.prefixb_spec in M. now rewrite M in I. Qed.
Ltac computed := vm_compute; reflexivity.
Example C89_example : exists c, sent_on_windows wfirst three_ok windows 0 c everyone (wafter wfirst (OSend 0 everyone) three_ok windows)
    (part wfirst (OSend 0 everyone) three_ok windows) /\
  text_ok everyone /\ full_writes (wtalk (part wfirst (OSend 0 everyone) three_ok windows)) /\ fields_written (wtalk (part wfirst (OSend 0 everyone) three_ok windows)) /\
  map (firstn 4) (firstn 6 (written (wtalk (part wfirst (OSend 0 everyone) three_ok windows)))) = map B ["ehlo"; "MAIL"; "RCPT"; "RCPT"; "RCPT"; "DATA"]%string.
Proof.
  eexists. split; [|split; [text_checked|split; [apply full_checked; computed|split; [apply full_fields, full_checked; computed|computed]]]].
  split; [vm_compute; reflexivity|]. split; [vm_compute; reflexivity|]. split; [vm_compute; reflexivity|]. split; [apply standard_checked; computed|]. apply small_ok. vm_compute. reflexivity.
Qed.

(** C89 fails: "000" in answer to the end of data counts as success. *)
Theorem C89_unacknowledged_success_refuted : exists e w' t before r,
  wstep (OSend 0 hi) (wbefore wfirst e windows) = (Done 0, w') /\ ww_trace w' = ww_trace (wbefore wfirst e windows) ++ t /\
  exchanges (wtalk t) = before ++ [(END_line, r)] /\ ~ answered "250" (END_line, r).
Proof.
  exists (wire (hello ++ said "250 ok" ++ said "250 ok" ++ said "354 go" ++ said "000 no")).
  eexists _, _.
  match goal with |- exists _ _, _ /\ _ /\ exchanges ?l = _ /\ _ => exists (removelast (exchanges l)) end.
  exists (B "000 no" ++ CRLF).
  split; [vm_compute; reflexivity|]. split; [vm_compute; reflexivity|]. split; [vm_compute; reflexivity|].
  intros [r X]. discriminate X.
Qed.
Print Assumptions C89_unacknowledged_success_refuted.

(** ** C90: recipients *)

(** C90: when a RCPT is not answered 250, DATA is not sent and 0 is not
    returned. *)
Theorem C90_refused_recipient_partial : forall ops e x i c m z w' t,
  get_client (ww (wbefore ops e x)) i = Some c -> wstep (OSend i m) (wbefore ops e x) = (z, w') ->
  ww_trace w' = ww_trace (wbefore ops e x) ++ t -> Forall smooth t -> standard (wtalk t) ->
  exists conn mail, phases (c_conn c) (wtalk t) conn mail /\
  forall a reply before after, mail = before ++ (rcpt_line a, reply) :: after -> ~ In DATA_line (map fst before) ->
  ~ answered "250" (rcpt_line a, reply) -> ~ In DATA_line (map fst after) /\ z <> Done 0.
Proof. intros ops e x i c m z w' t G S T. exact (win_refused ops e x i m w' t c G T z S). Qed.
Print Assumptions C90_refused_recipient_partial.
(** C90: what follows DATA is a beginning of a text that does not depend on the
    Bcc list. *)
Theorem C90_no_bcc_after_data_partial : forall ops e x i c m z w' t,
  get_client (ww (wbefore ops e x)) i = Some c -> wstep (OSend i m) (wbefore ops e x) = (z, w') ->
  ww_trace w' = ww_trace (wbefore ops e x) ++ t -> Forall smooth t -> text_ok m ->
  exists conn mail, phases (c_conn c) (wtalk t) conn mail /\
  forall before r after, mail = before ++ (DATA_line, r) :: after -> ~ In DATA_line (map fst before) ->
  exists texts, with_quits texts (map fst after) /\
    (fields_written (wtalk t) -> exists quits, map fst after = texts ++ quits /\ Forall (eq QUIT_line) quits) /\
    (starts_with (concat texts) (mail_text (disk ops e x) (without_bcc m) ++ END_line) \/
     (~ standard_reply r /\ starts_with (concat texts) (body_text (disk ops e x) (without_bcc m) ++ END_line))).
Proof. intros ops e x i c m z w' t G S T. exact (win_data_texts ops e x i m w' t c G T z S). Qed.
Print Assumptions C90_no_bcc_after_data_partial.

(** Cases: a refused recipient, and a mail with a Bcc list. *)
Example C90_example : let t := part wfirst (OSend 0 two_recipients) one_refused windows in
  Forall smooth t /\ standard (wtalk t) /\ fst (wstep (OSend 0 two_recipients) (wbefore wfirst one_refused windows)) = Done 550 /\
  In (rcpt_line jane, B "550 unknown" ++ CRLF) (exchanges (wtalk t)).
Proof.
  cbv zeta. split; [apply smoothb_ok; vm_compute; reflexivity|]. split; [apply standard_checked; computed|]. split; [vm_compute; reflexivity|]. vm_compute. member.
Qed.
Example C90_bcc_example : let t := part wfirst (OSend 0 everyone) three_ok windows in
  Forall smooth t /\ In (rcpt_line (mkAddr (B "bcc@example.com") [])) (written (wtalk t)) /\ In DATA_line (written (wtalk t)).
Proof. cbv zeta. split; [apply smoothb_ok; vm_compute; reflexivity|]. split; vm_compute; member. Qed.

(** C90 fails as C28 does: after a refused recipient and one answered "000" the
    mail is sent. *)
Theorem C90_refused_recipient_refuted : exists e w' before after, let t := part wfirst (OSend 0 two_recipients) e windows in
  wstep (OSend 0 two_recipients) (wbefore wfirst e windows) = (Done 0, w') /\ Forall smooth t /\
  exchanges (wtalk t) = before ++ (rcpt_line jane, B "550 no" ++ CRLF) :: after /\ In DATA_line (map fst after).
Proof.
  set (e := wire (hello ++ said "250 ok" ++ said "550 no" ++ said "000 x" ++ said "354 go" ++ said "250 ok")).
  exists e, (snd (wstep (OSend 0 two_recipients) (wbefore wfirst e windows))).
  exists (firstn 2 (exchanges (wtalk (part wfirst (OSend 0 two_recipients) e windows)))), (skipn 3 (exchanges (wtalk (part wfirst (OSend 0 two_recipients) e windows)))).
  split; [vm_compute; reflexivity|]. split; [apply smoothb_ok; vm_compute; reflexivity|]. split; [vm_compute; reflexivity|]. vm_compute. member.
Qed.
Print Assumptions C90_refused_recipient_refuted.

(** ** C91: authentication *)

(** C91: what follows an AUTH line is the credential of the client, line by
    line. *)
Theorem C91_credential_lines_partial : forall ops e x i c m z w' t t1 ev t2 d k,
  get_client (ww (wbefore ops e x)) i = Some c -> wstep (OSend i m) (wbefore ops e x) = (z, w') ->
  ww_trace w' = ww_trace (wbefore ops e x) ++ t -> Forall smooth t ->
  wtalk t = t1 ++ ev :: t2 -> writes d ev -> begins_auth k d -> before_mail t1 ->
  exists cr, c_cred c = Some cr /\ transmits k (cr_user cr) (cr_pass cr) d (written t2).
Proof. intros ops e x i c m z w' t t1 ev t2 d k G S T Sm. exact (win_transmits ops e x i m w' t c G T z S Sm t1 ev t2 d k). Qed.
Print Assumptions C91_credential_lines_partial.
(** C91: a plain or forced-TLS client with a credential sends a mail only after
    the server accepted it. *)
Theorem C91_mail_needs_authentication_partial : forall ops e x i c m z w' t t1 ev t2 d,
  get_client (ww (wbefore ops e x)) i = Some c -> wstep (OSend i m) (wbefore ops e x) = (z, w') ->
  ww_trace w' = ww_trace (wbefore ops e x) ++ t -> Forall smooth t ->
  orderly (wtalk t) -> c_kind c <> KOpp -> c_conn c = false -> c_cred c <> None ->
  wtalk t = t1 ++ ev :: t2 -> writes d ev -> mail_command d -> before_mail t1 ->
  exists before l, exchanges t1 = before ++ l /\ accepted_auth l.
Proof. intros ops e x i c m z w' t t1 ev t2 d G S T Sm. exact (win_authenticated ops e x i m w' t c G T z S Sm t1 ev t2 d). Qed.
Print Assumptions C91_mail_needs_authentication_partial.

(** C91 fails as C62 does: an opportunistic client whose server does not offer
    STARTTLS sends the mail without authentication. *)
Theorem C91_opportunistic_unauthenticated_refuted : exists e c w', let ops := [ONew KOpp server 25; OSetCred 0 joe_cred] in
  let t := part ops (OSend 0 hi) e windows in
  get_client (ww (wbefore ops e windows)) 0 = Some c /\ c_cred c = Some joe_cred /\ c_conn c = false /\
  wstep (OSend 0 hi) (wbefore ops e windows) = (Done 0, w') /\ Forall smooth t /\ orderly (wtalk t) /\
  (exists d, In d (written (wtalk t)) /\ mail_command d) /\
  forall d k, In d (written (wtalk t)) -> ~ begins_auth k d.
Proof.
  exists (offers "250-AUTH PLAIN" mail_replies). eexists _, (snd (wstep (OSend 0 hi) (wbefore [ONew KOpp server 25; OSetCred 0 joe_cred] (offers "250-AUTH PLAIN" mail_replies) windows))).
  cbv zeta. split; [vm_compute; reflexivity|]. split; [reflexivity|]. split; [reflexivity|]. split; [vm_compute; reflexivity|]. split; [apply smoothb_ok; vm_compute; reflexivity|].
  split; [seen_orderly|]. split.
  - exists (B "MAIL FROM: <joe@example.com>" ++ CRLF). split; [vm_compute; tauto|eexists; reflexivity].
  - intros d k H [r E]. subst d. vm_compute in H. destruct k; repeat (destruct H as [H|H]; [discriminate H|]); destruct H.
Qed.
Print Assumptions C91_opportunistic_unauthenticated_refuted.

(** A case: LOGIN is chosen and accepted. *)
Definition wlogin : list op := [ONew KPlain server 25; OSetCred 0 joe_cred].
Definition wlogin_events : list wevent := part wlogin (OSend 0 hi) login_env windows.
Example C91_example : exists c ev ev', get_client (ww (wbefore wlogin login_env windows)) 0 = Some c /\
  wstep (OSend 0 hi) (wbefore wlogin login_env windows) = (Done 0, wafter wlogin (OSend 0 hi) login_env windows) /\
  ww_trace (wafter wlogin (OSend 0 hi) login_env windows) = ww_trace (wbefore wlogin login_env windows) ++ wlogin_events /\
  Forall smooth wlogin_events /\ orderly (wtalk wlogin_events) /\ c_kind c <> KOpp /\ c_conn c = false /\ c_cred c = Some joe_cred /\
  (exists t1 t2, wtalk wlogin_events = t1 ++ ev :: t2 /\ writes (B "AUTH LOGIN" ++ CRLF) ev /\ begins_auth Login (B "AUTH LOGIN" ++ CRLF) /\ before_mail t1 /\
  firstn 3 (written t2) = [B "am9l" ++ CRLF; B "c2VjcmV0" ++ CRLF; B "MAIL FROM: <joe@example.com>" ++ CRLF]) /\
  (exists t1 t2, wtalk wlogin_events = t1 ++ ev' :: t2 /\ writes (B "MAIL FROM: <joe@example.com>" ++ CRLF) ev' /\ before_mail t1).
Proof.
  eexists _, (nth 6 (wtalk wlogin_events) (EvSleep 0)), (nth 15 (wtalk wlogin_events) (EvSleep 0)). split; [vm_compute; reflexivity|]. split; [vm_compute; reflexivity|].
  split; [vm_compute; reflexivity|]. split; [apply smoothb_ok; vm_compute; reflexivity|]. split; [seen_orderly|]. split; [discriminate|]. split; [vm_compute; reflexivity|]. split; [vm_compute; reflexivity|]. split.
  - exists (firstn 6 (wtalk wlogin_events)), (skipn (S 6) (wtalk wlogin_events)). split; [vm_compute; reflexivity|]. split; [left; eexists _, _; vm_compute; reflexivity|].
    split; [exists []; reflexivity|]. split; [apply no_mailb_ok; computed|vm_compute; reflexivity].
  - exists (firstn 15 (wtalk wlogin_events)), (skipn (S 15) (wtalk wlogin_events)). split; [vm_compute; reflexivity|]. split; [left; eexists _, _; vm_compute; reflexivity|]. apply no_mailb_ok; computed.
Qed.
