(** Windows: a To field that is too long is left out, and the message counts as
    sent. *)

From Coq Require Import Ascii String List NArith ZArith Bool Lia.
From Verif Require Import Base Lib ModelUtil ModelBase64 ModelAddress ModelAttachment
  ModelErrors ModelReply ModelMessage ModelState ModelClient ModelWorld SpecText SpecAddress SpecReply SpecMime SpecDialogue SpecAuth SpecForward
  ProofBase64 ProofMime ProofSteps ProofLog ProofDialogue ProofMail ProofMail2 ProofMail3 ProofForward ProofForward2 ModelWin SpecWin SpecWinForward ProofWin ProofWinForward ProofWinForward2 Samples.
Import ListNotations.
Open Scope Z_scope.

Ltac no_nuls := intros I; cbn in I; unfold NUL in I; intuition discriminate.

Section Skip.
Variable u : str.
Hypothesis Ua : Forall (fun a => a = "a"%char) u.
Hypothesis Ul : slen u = INT_MAX.

Definition far : address := mkAddr (B "jane@example.com") u.
Definition m : message := mkMsg Plaintext joe (AArr [far]) (ANull 0) (ANull 0) (B "Hi") (B "hello") (ANull 0).
Definition to_line : str := header_line (B "To") (generateHeaderAddressValues [far]).

Lemma u_cons : exists w, u = "a"%char :: w.
Proof. destruct u as [|c w]; [discriminate Ul|]. inversion Ua; subst. eauto. Qed.
Lemma line_eq : to_line = B "To: " ++ u ++ B " <jane@example.com>" ++ CRLF.
Proof.
  unfold to_line, header_line, generateHeaderAddressValues. cbn [header_addresses_loop]. unfold address_str, far. cbn [a_name a_email].
  destruct u_cons as [w ->]. rewrite app_nil_r. change (match 0%nat with 0%nat => [] | S _ => B ", " end) with (@nil ascii). rewrite app_nil_l.
  change (B "To: ") with (B "To" ++ B ": "). rewrite <- !app_assoc. reflexivity.
Qed.
Lemma line_cstr : cstr to_line = to_line.
Proof.
  rewrite line_eq. apply nn_cstr. intros I. apply in_app_or in I as [I|I]; [cbn in I; unfold NUL in I; intuition discriminate|].
  apply in_app_or in I as [I|I].
  - rewrite Forall_forall in Ua. apply Ua in I. discriminate.
  - cbn in I; unfold NUL in I; intuition discriminate.
Qed.
Lemma line_length : slen to_line = (INT_MAX + 25)%N.
Proof. rewrite line_eq, !slen_app, Ul. reflexivity. Qed.

(** Up to the From field. *)
Definition stage1 : W (Z * Z * Z * Z) :=
  r <# establishPlainW ;; base (updc (set_conn true)) ;;# q <# setMailRecipientsW m ;;
  base (logc (B "DATA" ++ CRLF)) ;;# d <# sendFeedbackPtrW (B "DATA" ++ CRLF) CLIENT_SENDMAIL_DATA_ERROR CLIENT_SENDMAIL_DATA_TIMEOUT ;;
  f <# addMailHeaderW (B "From") (address_str (m_from m)) CLIENT_SENDMAIL_HEADERFROM_ERROR ;; wret (r, q, d, f).
(** After the To field. *)
Definition tailW : W Z :=
  address_headerW (B "Cc") (m_cc m) ;;#
  base (logc (header_line (B "Subject") (m_subject m))) ;;#
  s <# sendCommandPtrW cleanupW (header_line (B "Subject") (m_subject m)) CLIENT_SENDMAIL_HEADERSUBJECT_ERROR ;;
  if negb (s =? 0) then wret s else
  base (logc CONTENT_TYPE_LINE) ;;#
  t <# sendCommandPtrW cleanupW CONTENT_TYPE_LINE CLIENT_SENDMAIL_HEADERCONTENTTYPE_ERROR ;;
  if negb (t =? 0) then wret t else wret 0.
Definition restW : W Z :=
  h <# tailW ;;
  if negb (h =? 0) then wret h else
  b <# setMailBodyW m ;;
  if negb (b =? 0) then wret b else
  c <# base getc ;;
  (if c_batch c then wret tt else cleanupW) ;;#
  wret 0.
Definition tailP : M Z :=
  address_header (B "Cc") (m_cc m) ;;
  logc (header_line (B "Subject") (m_subject m)) ;;
  s <- sendCommandPtr (header_line (B "Subject") (m_subject m)) CLIENT_SENDMAIL_HEADERSUBJECT_ERROR ;;
  if negb (s =? 0) then ret s else
  logc CONTENT_TYPE_LINE ;;
  t <- sendCommandPtr CONTENT_TYPE_LINE CLIENT_SENDMAIL_HEADERCONTENTTYPE_ERROR ;;
  if negb (t =? 0) then ret t else ret 0.
Definition restP : M Z :=
  h <- tailP ;;
  if negb (h =? 0) then ret h else
  b <- setMailBody m ;;
  if negb (b =? 0) then ret b else
  c <- getc ;;
  (if c_batch c then ret tt else cleanup) ;;
  ret 0.

Lemma wget {A} (k : client -> W A) v : wbind (base getc) k v = k (v_c v) v.
Proof. destruct v. unfold wbind, base, getc. cbn. now rewrite app_nil_r. Qed.
Lemma split_send v v3 : c_conn (v_c v) = false -> c_kind (v_c v) = KPlain -> stage1 v = (Done (0, 0, 354, 0), v3) ->
  sendMailW m v = (address_headerW (B "To") (m_to m) ;;# restW) v3.
Proof.
  intros Cn Ck S. unfold sendMailW. rewrite wget, Cn. unfold wbind at 1. unfold establishW. rewrite wget, Ck.
  unfold stage1, wbind at 1 in S. destruct (establishPlainW v) as [[r| | | | |] v1]; try discriminate.
  unfold wbind at 1 in S. destruct (base (updc (set_conn true)) v1) as [[[]| | | | |] v2] eqn:E1; try discriminate.
  unfold wbind at 1 in S. destruct (setMailRecipientsW m v2) as [[q| | | | |] v4] eqn:E2; try discriminate.
  unfold wbind at 1 in S. destruct (base (logc (B "DATA" ++ CRLF)) v4) as [[[]| | | | |] v5] eqn:E3; try discriminate.
  unfold wbind at 1 in S. destruct (sendFeedbackPtrW (B "DATA" ++ CRLF) CLIENT_SENDMAIL_DATA_ERROR CLIENT_SENDMAIL_DATA_TIMEOUT v5) as [[d| | | | |] v6] eqn:E4; try discriminate.
  unfold wbind at 1 in S. destruct (addMailHeaderW (B "From") (address_str (m_from m)) CLIENT_SENDMAIL_HEADERFROM_ERROR v6) as [[f| | | | |] v7] eqn:E5; try discriminate.
  injection S as -> -> -> -> ->. cbn [Z.eqb negb]. unfold wbind at 1. rewrite E1. unfold mail_transactionW. unfold wbind at 1. rewrite E2. cbn [Z.eqb negb].
  unfold wbind at 1. unfold setMailHeadersW. unfold wbind at 1. rewrite E3. unfold wbind at 1. rewrite E4. cbn [Z.eqb Pos.eqb negb STATUS_CODE_START_MAIL_INPUT].
  unfold wbind at 1. rewrite E5. cbn [Z.eqb negb]. unfold restW, tailW.
  unfold wbind. destruct (address_headerW (B "To") (m_to m) v3) as [[[]| | | | |] v8]; try reflexivity.
Qed.

(** The To field. *)
Lemma to_skipped n v : c_kind (v_c v) = KPlain -> room n (v_c v) -> (n <= 1000000)%N -> exists lg k,
  address_headerW (B "To") (m_to m) v = (Done tt, mkV (set_log lg k (v_c v)) (v_on v) (v_e v) (v_w v) (v_t v ++ [WTooLong to_line])) /\
  room 10000000000 (set_log lg k (v_c v)).
Proof.
  intros K R N. destruct v as [c on e x t]. cbn [v_c v_on v_e v_w v_t] in *.
  destruct (addLog_room to_line (B "c") n (mkSt c e []) R) as (lg & k & E & Q).
  { rewrite line_length. change (slen (B "c")) with 1%N. unfold LIM, INT_MAX. lia. }
  exists (Some lg), k. split.
  - cbn [address_headerW m m_to]. unfold addMailHeaderW. fold to_line. unfold wbind, base at 1. cbn [v_c v_e v_t v_on v_w]. unfold logc. rewrite E. cbn [log_state s_c s_e s_t map].
    rewrite app_nil_r. unfold sendCommandPtrW. rewrite wget. cbn [v_c]. change (c_kind (set_log (Some lg) k c)) with (c_kind c). rewrite K.
    assert (X : forall v, sendRaw2W cleanupW to_line CLIENT_SENDMAIL_HEADERTOANDCC_ERROR v = (Done CLIENT_SENDMAIL_HEADERTOANDCC_ERROR, mkV (v_c v) (v_on v) (v_e v) (v_w v) (v_t v ++ [WTooLong to_line]))).
    { intros v. unfold sendRaw2W. rewrite line_cstr, line_length. reflexivity. }
    destruct (c_rawptr _); rewrite X; reflexivity.
  - destruct Q as [G (l & L & Ln)]. split; [exact G|]. exists l. split; [exact L|]. rewrite line_length in Ln. change (slen (B "c")) with 1%N in Ln. unfold INT_MAX in Ln. lia.
Qed.

(** The rest. *)
Local Notation fsim := (fs fits anyenv).
Lemma fit_send fd d r : fits (EvSend fd d r) -> (slen d <= INT_MAX)%N.
Proof. exact (fun H => H). Qed.
Lemma fs_rest : fsim restW restP.
Proof.
  pose proof (fs_ptr' fits fit_send) as P. assert (Bd := fun A C => @fs_bind fits A C). assert (Rt := fun A a => @fs_ret fits A a).
  unfold restW, restP, tailW, tailP. apply Bd.
  - apply Bd; [apply (fs_addr_header fits fit_send)|intros _]. apply Bd; [apply fs_base, neu_logc|intros _]. apply Bd; [apply P|intros s]. destruct (negb (s =? 0)); [apply Rt|].
    apply Bd; [apply fs_base, neu_logc|intros _]. apply Bd; [apply P|intros s']. destruct (negb (s' =? 0)); apply Rt.
  - intros h. destruct (negb (h =? 0)); [apply Rt|]. apply Bd; [apply (fs_body fits fit_send)|intros b]. destruct (negb (b =? 0)); [apply Rt|].
    apply Bd; [apply fs_base, neu_getc|intros c]. apply Bd; [destruct (c_batch c); [apply Rt|apply (fs_cleanup fits fit_send)]|intros _; apply Rt].
Qed.

Definition rest_talk (r : str) : list (str * str) :=
  silent [B "Subject: Hi" ++ CRLF; CONTENT_TYPE_LINE] ++ silent (body_chunks (body_text (fun _ => None) hi)) ++ (END_line, r) :: goodbye false.
Lemma rest_now c0 e0 rest r n s : quiet e0 -> (0 < c_timeout c0)%N -> c_kind c0 = KPlain -> c_batch c0 = false -> positive "250" r ->
  (n + (4 + volume (rest_talk r)) <= LIM)%N -> ready c0 (arriving false [r] rest e0) n s ->
  exists s' t, restP s = (Done 0, s') /\ s_t s' = s_t s ++ t /\ talks t (rest_talk r).
Proof.
  intros Q Tm K Bt P N R. assert (Ch : carries false c0) by (left; exact K).
  assert (G : goes c0 (arriving false [r] rest e0) tailP 0 (silent [B "Subject: Hi" ++ CRLF; CONTENT_TYPE_LINE]) c0 (arriving false [r] rest e0) (volume (silent [B "Subject: Hi" ++ CRLF; CONTENT_TYPE_LINE]))).
  { pose proof (quiet_arriving false [r] rest e0 Q) as Q1. unfold tailP. eapply goes_more; [eapply (goes_then _ _ _ tt _ _ 0%N); [apply goes_ret|]|].
    - change (silent [B "Subject: Hi" ++ CRLF; CONTENT_TYPE_LINE]) with (silent [B "Subject: Hi" ++ CRLF] ++ silent [CONTENT_TYPE_LINE]).
      change (header_line (B "Subject") (m_subject m)) with (B "Subject: Hi" ++ CRLF).
      eapply goes_then; [apply goes_logc|]. eapply (goes_bind _ _ _ 0); [|cbn [Z.eqb negb]; eapply goes_then; [apply goes_logc|]; eapply (goes_last _ _ _ 0); [|apply goes_ret]].
      + apply (goes_cmd' false); first [assumption|reflexivity].
      + apply (goes_cmd' false); first [assumption|reflexivity].
    - vm_compute. discriminate. }
  unfold rest_talk in N. rewrite volume_app in N.
  destruct (G n s ltac:(lia) R) as (s1 & t1 & E1 & R1 & T1 & K1).
  assert (Tk : text_ok hi) by (constructor; [split| |no_nuls|no_nuls|constructor]; [no_nuls|no_nuls|constructor; [split; no_nuls|constructor]]).
  assert (Mk : message_ok hi) by (split; [|split]; intros X; solve [eexists; reflexivity|contradiction X; reflexivity]).
  pose proof (fun X => goes_body false c0 e0 rest Q Tm Ch hi r [] Tk Mk P _ s1 X R1) as H3. rewrite Bt in H3.
  change (body_text (e_fs e0) hi) with (body_text (fun _ => None) hi) in H3.
  destruct (H3 ltac:(lia)) as (s3 & t3 & E3 & R3 & T3 & K3).
  unfold restP. unfold bind at 1. rewrite E1. cbn [Z.eqb negb]. unfold bind at 1. change (setMailBody m) with (setMailBody hi). rewrite E3. cbn [Z.eqb negb].
  unfold bind at 1, getc. rewrite (blank_batch _ _ (proj1 R3)), Bt.
  unfold bind at 1. rewrite cleanup_plain by (rewrite (blank_batch _ _ (proj1 R3)), Bt; reflexivity). destruct (deaf_teardown s3) as (t4 & T4 & D4).
  exists (teardown s3), ((t1 ++ t3) ++ t4). split; [reflexivity|]. split; [rewrite T4, T3, T1, !app_assoc; reflexivity|].
  pose proof (dialogue_deaf t4 [] D4) as X. rewrite app_nil_r in X. pose proof (talks_app _ _ _ _ (talks_app _ _ _ _ K1 K3) (mute_talks t4 X)) as Y. rewrite app_nil_r in Y. exact Y.
Qed.
End Skip.

(** All together, from a state [v3] that the first part has led to. *)
Lemma too_long_skipped u v v3 r rest n : Forall (fun a => a = "a"%char) u -> slen u = INT_MAX ->
  c_conn (v_c v) = false -> c_kind (v_c v) = KPlain -> stage1 u v = (Done (0, 0, 354, 0), v3) ->
  c_kind (v_c v3) = KPlain -> c_batch (v_c v3) = false -> (0 < c_timeout (v_c v3))%N -> room n (v_c v3) -> (n <= 1000000)%N ->
  calm (v_w v3) -> quiet (posix_env [] (v_e v3)) -> e_recv (v_e v3) = [RData r; RErr 11] ++ rest -> positive "250" r ->
  exists v' tp tw, sendMailW (m u) v = (Done 0, v') /\ v_t v' = v_t v3 ++ [WTooLong (to_line u)] ++ tw /\ wtalk tw = talk tp /\ talks tp (rest_talk r).
Proof.
  intros Ua Ul Cn Ck S K Bt Tm Rm Nn Cv Q Rv P. rewrite (split_send u v v3 Cn Ck S).
  destruct (to_skipped u Ua Ul n v3 K Rm Nn) as (lg & k & E & R2). unfold wbind at 1. rewrite E. destruct v3 as [c on e x t]. cbn [v_c v_on v_e v_w v_t] in *.
  set (c1 := set_log lg k c) in *. destruct (fs_rest u c1 e x Cv Logic.I) as (o & c' & e' & tp & Fp & Fw).
  assert (Ar : posix_env [] e = arriving false [r] rest (posix_env [] e)).
  { destruct e. cbn in Rv. subst. reflexivity. }
  destruct (rest_now u Ul c1 (posix_env [] e) rest r 10000000000 (mkSt c1 (posix_env [] e) []) Q Tm K Bt P) as (s' & t' & E' & T' & Tk).
  { destruct P as (_ & _ & _ & L). unfold rest_talk. rewrite volume_app, volume_app. cbn [volume].
    assert (X1 : (volume (silent [B "Subject: Hi" ++ CRLF; CONTENT_TYPE_LINE]) < 10000)%N) by (vm_compute; reflexivity).
    assert (X2 : (volume (silent (body_chunks (body_text (fun _ => None) hi))) < 10000)%N) by (vm_compute; reflexivity).
    assert (X3 : (volume (goodbye false) < 10000)%N) by (vm_compute; reflexivity).
    assert (X4 : (slen END_line < 100)%N) by (vm_compute; reflexivity). assert (X5 : (slen r < 1024)%N) by (unfold slen; lia). unfold LIM. lia. }
  { split; [reflexivity|]. split; [exact Ar|exact R2]. }
  rewrite (Fp []) in E'. injection E' as -> <-. cbn [s_t app] in T'. subst t'.
  assert (Ft : Forall fits tp).
  { apply fits_written. unfold written. rewrite (talk_exchanges _ _ (proj1 Tk)). unfold rest_talk. rewrite !map_app. cbn [map fst].
    apply Forall_forall. intros d Hd. apply N.leb_le. revert d Hd. apply forallb_forall. vm_compute. reflexivity. }
  destruct (Fw Ft on (t ++ [WTooLong (to_line u)])) as (on' & tw & Ew & Et).
  exists (mkV c' on' e' x ((t ++ [WTooLong (to_line u)]) ++ tw)), tp, tw. split; [exact Ew|]. split; [cbn [v_t]; now rewrite <- app_assoc|]. split; [exact Et|exact Tk].
Qed.
