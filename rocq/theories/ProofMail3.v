(** Refused recipients, the accepted dialogue, Bcc and header fields. *)

From Coq Require Import Ascii String List NArith ZArith Bool Lia ZifyBool ZifyNat ZifyN.
From Verif Require Import Base Lib ModelUtil ModelBase64 ModelAddress ModelAttachment
  ModelErrors ModelReply ModelMessage ModelState ModelClient ModelWorld
  ProofSteps ProofWalk ProofPhases ProofEstablish ProofLog ProofSend ProofWorld
  SpecAddress SpecText SpecReply SpecMime SpecBase64 SpecDialogue ProofReply ProofAddress ProofBase64 ProofMime
  ProofTls ProofTls2 ProofDialogue ProofMail ProofMail2.
Import ListNotations.
Open Scope Z_scope.

(** ** Refused recipients *)

Lemma recipients_no_data : forall m s x s', setMailRecipients m s = (x, s') ->
  exists t, s_t s' = s_t s ++ t /\ ~ In DATA_line (written t).
Proof.
  intros m s x s' H. destruct (recipients_lines m s) as [W _]. rewrite H in W. cbn [snd] in W.
  destruct (steps_written _ _ _ W) as (t & T & Hw). exists t. split; [exact T|]. intros D.
  destruct (Hw _ D) as [X|[X|[X _]]]; [exact (no_data_before _ X eq_refl)|exact (no_data_before _ X eq_refl)|discriminate X].
Qed.

Lemma grows_mail_rest : forall (m : message) (h : Z),
  grows (if negb (h =? 0) then ret h else
   (b <- setMailBody m;;
    if negb (b =? 0) then ret b else
    c <- getc;; (if c_batch c then ret tt else cleanup);; ret 0)).
Proof. intros m h. destruct (negb _); grow; try apply grows_body. Qed.

Lemma opens_mail_rest : forall m, opens DATA_line (h <- setMailHeaders m;;
  if negb (h =? 0) then ret h else
   (b <- setMailBody m;;
    if negb (b =? 0) then ret b else
    c <- getc;; (if c_batch c then ret tt else cleanup);; ret 0)).
Proof.
  intros m s. unfold setMailHeaders. rewrite bind_assoc. revert s. apply opens_log, opens1_opens. intros s. rewrite bind_assoc. revert s.
  apply opens1_bind; [exact (opens1_fb (B "DATA" ++ CRLF) _ _)|].
  intros a. apply grows_bind; [destruct (negb _); [grow|]; unfold addMailHeader; grow|apply grows_mail_rest].
Qed.

Lemma starts_mail : forall from d, In d (map cstr (mail_formats from)) -> starts_with (B "MAIL") d.
Proof. intros from d [<-|[<-|[<-|[]]]]; eexists; reflexivity. Qed.
Lemma rcpt_starts : forall a, starts_with (B "RCPT") (cstr (rcpt_command a)).
Proof. intros a. eexists. reflexivity. Qed.

Lemma transaction_refused : forall m s x s' t, mail_transaction m s = (x, s') -> s_t s' = s_t s ++ t -> standard t ->
  forall a reply before after, exchanges t = before ++ (rcpt_line a, reply) :: after -> ~ In DATA_line (map fst before) ->
  ~ answered "250" (rcpt_line a, reply) -> ~ In DATA_line (map fst after) /\ x <> Done 0.
Proof.
  intros m s x s' t H T S a reply before after E Nb Na. unfold mail_transaction in H.
  unfold bind at 1 in H. destruct (setMailRecipients m s) as [o s1] eqn:H1.
  destruct (recipients_no_data _ _ _ _ H1) as (t1 & T1 & D1).
  assert (A : s' = s1 /\ x = o /\ o <> Done 0 -> ~ In DATA_line (map fst after) /\ x <> Done 0).
  { intros (-> & -> & N). split; [|exact N]. rewrite T in T1. apply app_inv_head in T1. subst t1. intros Hin. apply D1.
    unfold written. rewrite E, map_app. apply in_or_app. right. right. exact Hin. }
  destruct o as [r| | | | |]; try (inversion H; subst; apply A; split; [reflexivity|]; split; [reflexivity|discriminate]).
  destruct (r =? 0) eqn:Er; cbn [negb] in H.
  2:{ inversion H; subst. apply A. split; [reflexivity|]. split; [reflexivity|]. intros X; inversion X; subst; discriminate Er. }
  clear A. apply Z.eqb_eq in Er. subst r.
  destruct (setMailRecipients_done _ _ _ H1) as [(t1' & T1' & Bd)|(refused & line & rep & more & l & R1 & M1 & A1 & A2 & M2 & A3)].
  { exfalso. rewrite T1 in T1'. apply app_inv_head in T1'. subst t1'.
    assert (X : ext s1 s').
    { assert (G : grows (h <- setMailHeaders m;; if negb (h =? 0) then ret h else
          (b <- setMailBody m;; if negb (b =? 0) then ret b else c <- getc;; (if c_batch c then ret tt else cleanup);; ret 0))).
      { apply grows_bind; [apply grows_headers|intros h; apply grows_mail_rest]. }
      specialize (G s1). rewrite H in G. exact G. }
    destruct X as [t2 T2]. rewrite T2, T1, <- app_assoc in T. apply app_inv_head in T. subst t.
    exact (standard_nonstandard _ S (nonstandard_l _ _ Bd)). }
  destruct R1 as (_ & t1' & T1' & K1). rewrite T1 in T1'. apply app_inv_head in T1'. subst t1'.
  destruct (opens_mail_rest m s1) as (t2 & T2 & O2).
  rewrite H in T2. cbn [snd] in T2. rewrite T2, T1, <- app_assoc in T. apply app_inv_head in T. subst t.
  assert (E2 : exists e2, talk t2 e2 /\ (e2 = [] \/ exists h e3, e2 = (DATA_line, h) :: e3)).
  { destruct O2 as [->|(ev & rest & -> & [(fd & q & ->)|(b & q & ->)])]; [exists []; split; [reflexivity|auto]| |];
      unfold talk; cbn [dialogue]; destruct (dialogue rest) as [h e3]; exists ((DATA_line, h) :: e3); split; [reflexivity|eauto|reflexivity|eauto]. }
  destruct E2 as (e2 & K2 & E2). rewrite (exchanges_app _ _ _ K2), (talk_exchanges _ _ K1) in E.
  exfalso.
  assert (Hin : In (rcpt_line a, reply) (refused ++ (line, rep) :: l)).
  { clear -E E2 Nb. revert before E Nb. generalize (refused ++ (line, rep) :: l). induction l0 as [|y l0 IH]; intros before E Nb; cbn [app] in E.
    - destruct E2 as [->|(h & e3 & ->)]; [destruct before; discriminate E|].
      destruct before as [|b before]; [discriminate (f_equal (fun z => match z with (d, _) :: _ => d | [] => [] end) E)|].
      inversion E; subst. exfalso. apply Nb. left. reflexivity.
    - destruct before as [|b before]; inversion E; subst; [left; reflexivity|]. right. apply (IH before); [assumption|].
      intros X. apply Nb. right. exact X. }
  assert (M : forall d, In d (map fst refused ++ [line]) -> starts_with (B "MAIL") d).
  { intros d Hd. apply (starts_mail (m_from m)). rewrite M1. apply in_app_or in Hd as [Hd|[<-|[]]]; apply in_or_app; [left; exact Hd|right; left; reflexivity]. }
  apply in_app_or in Hin as [Hin|[Hin|Hin]].
  - destruct (M (rcpt_line a)) as [q Q]; [apply in_or_app; left; apply (in_map fst) in Hin; exact Hin|discriminate Q].
  - inversion Hin; subst. destruct (M (rcpt_line a)) as [q Q]; [apply in_or_app; right; left; reflexivity|discriminate Q].
  - rewrite Forall_forall in A3. exact (Na (A3 _ Hin)).
Qed.

Lemma send_refused : forall m s x s' t, sendMail m s = (x, s') -> s_t s' = s_t s ++ t -> standard t ->
  exists conn mail, phases (c_conn (s_c s)) t conn mail /\
  forall a reply before after, mail = before ++ (rcpt_line a, reply) :: after -> ~ In DATA_line (map fst before) ->
  ~ answered "250" (rcpt_line a, reply) -> ~ In DATA_line (map fst after) /\ x <> Done 0.
Proof.
  intros m s x s' t H T S. destruct (send_phases _ _ _ _ _ H T) as (conn & mail & s1 & t2 & P & E & [[-> N]|(C1 & Cf & Fs & K & H2 & (t1 & T1 & Et) & T2 & Q)]).
  - exists conn, []. split; [exact P|]. intros a reply [|] after X; discriminate X.
  - subst mail. exists conn, (exchanges t2). split; [exact P|]. apply (transaction_refused _ _ _ _ _ H2 T2).
    subst t. intros d h Hd. apply (S d h). apply exchanges_in_r. exact Hd.
Qed.

(** ** The accepted dialogue *)

Ltac nolit := let X := fresh in intros X; vm_compute in X; intuition discriminate.
Lemma nn_app : forall a b, no_nul a -> no_nul b -> no_nul (a ++ b).
Proof. intros a b H1 H2 X. apply in_app_or in X as [X|X]; auto. Qed.
Lemma nn_join : forall sep l, no_nul sep -> Forall no_nul l -> no_nul (join sep l).
Proof.
  intros sep l Hs H. induction H as [|x l Hx Hl IH]; [intros []|]. destruct l as [|y l]; [exact Hx|].
  cbn [join]. apply nn_app; [exact Hx|apply nn_app; [exact Hs|exact IH]].
Qed.
Lemma nn_cons : forall (c : ascii) s, c <> NUL -> no_nul s -> no_nul (c :: s).
Proof. intros c s H1 H2 [X|X]; auto. Qed.
Lemma nn_show : forall a, address_text_ok a -> no_nul (show_address a).
Proof.
  intros a [He Hn]. unfold show_address. destruct (a_name a) as [|c n]; [exact He|].
  apply nn_app; [exact Hn|]. apply nn_app; [nolit|]. apply nn_app; [exact He|nolit].
Qed.
Lemma nn_addresses : forall l, Forall address_text_ok l -> no_nul (join (B ", ") (map show_address l)).
Proof.
  intros l H. apply nn_join; [nolit|]. apply Forall_forall. intros x Hx. apply in_map_iff in Hx as (a & <- & Ha).
  rewrite Forall_forall in H. apply nn_show, H, Ha.
Qed.
Lemma nn_cstr : forall s, no_nul s -> cstr s = s.
Proof. exact cstr_nonul. Qed.

Lemma nn_mime : forall a, no_nul (getMimeType a).
Proof.
  intros a. unfold getMimeType. cbv zeta.
  set (e := extension (at_file a)). clearbody e.
  repeat (match goal with |- no_nul (if ?b then _ else _) => destruct b end; [nolit|]); nolit.
Qed.

Lemma nn_attachment_headers : forall a, attachment_text_ok a -> Forall no_nul (attachment_headers a).
Proof.
  intros a [Hn Hc]. unfold attachment_headers. apply Forall_app. split; [|apply Forall_app; split].
  - constructor; [|constructor]. apply nn_app; [nolit|]. apply nn_app; [apply nn_mime|]. apply nn_app; [nolit|].
    apply nn_app; [exact Hn|nolit].
  - destruct (at_cid a) as [|c cid] eqn:E; repeat constructor;
      repeat first [apply nn_app | exact Hn | exact Hc | nolit].
  - repeat constructor. nolit.
Qed.

Lemma nn_body : forall fs m, text_ok m -> no_nul (body_text fs m).
Proof.
  intros fs m [_ _ _ Hb Ha]. unfold body_text. apply nn_join; [nolit|]. unfold body_lines. apply Forall_app. split.
  - unfold text_lines, text_headers. repeat constructor; try nolit; try exact Hb.
    apply nn_app; [nolit|]. destruct (m_kind m); nolit.
  - destruct (listed (m_atts m)) as [|x l] eqn:E; [constructor|]. apply Forall_app. split; [|repeat constructor; nolit].
    apply Forall_forall. intros y Hy. apply in_flat_map in Hy as (a & Ia & Hy). rewrite Forall_forall in Ha.
    specialize (Ha a Ia). unfold attachment_lines in Hy. apply in_app_or in Hy as [[<-|[]]|Hy]; [nolit|].
    apply in_app_or in Hy as [Hy|[<-|[<-|[]]]]; [|intros []|].
    + assert (F := nn_attachment_headers a Ha). rewrite Forall_forall in F. apply F, Hy.
    + intros X. assert (N : cstr (file_text fs a) = file_text fs a) by (unfold file_text, getBase64EncodedFile; destruct (fs (at_file a)); [apply encode_no_nul|reflexivity]).
      rewrite <- N in X. exact (nul_notin_cstr _ X).
Qed.

Lemma nn_concat : forall l, no_nul (concat l) -> map cstr l = l.
Proof.
  induction l as [|x l IH]; intros H; [reflexivity|]. cbn [concat map] in *.
  rewrite nn_cstr, IH; [reflexivity| |]; intros X; apply H, in_or_app; auto.
Qed.

Lemma nn_header : forall m, text_ok m -> no_nul (header_text m).
Proof.
  intros m [Hf Hr Hs _ _]. unfold header_text. apply nn_app; [|nolit].
  assert (F : Forall no_nul (header_fields m)).
  { unfold header_fields, recipients in *. rewrite !Forall_app in Hr. destruct Hr as (Ht & Hc & _).
    assert (A : forall name l, no_nul name -> Forall address_text_ok l -> Forall no_nul (address_field name l)).
    { intros name l Hn Hl. destruct l as [|y l]; [constructor|]. cbn [address_field]. constructor; [|constructor].
      apply nn_app; [exact Hn|]. apply nn_app; [nolit|]. apply nn_addresses, Hl. }
    apply Forall_app. split; [constructor; [|constructor]; apply nn_app; [nolit|apply nn_show, Hf]|].
    apply Forall_app. split; [apply A; [nolit|exact Ht]|]. apply Forall_app. split; [apply A; [nolit|exact Hc]|].
    constructor; [apply nn_app; [nolit|exact Hs]|]. constructor; [nolit|constructor]. }
  induction F as [|x l Hx Hl IH]; [intros []|]. cbn [map concat]. apply nn_app; [apply nn_app; [exact Hx|nolit]|exact IH].
Qed.

Lemma header_concat : forall m, concat (data_headers m) = header_text m.
Proof.
  intros m. unfold data_headers, header_text, header_fields.
  assert (A : forall f a, concat (address_lines f a) = concat (map (fun l => l ++ CRLF) (address_field f (listed a)))).
  { intros f a. unfold address_lines. destruct (listed a) as [|x l]; [reflexivity|]. rewrite field_line. reflexivity. }
  rewrite !map_app, !concat_app, !A.
  assert (E : header_line (B "From") (address_str (m_from m)) = (B "From: " ++ show_address (m_from m)) ++ CRLF).
  { unfold header_line, address_str, show_address. destruct (a_name (m_from m)); rewrite <- ?app_assoc; reflexivity. }
  cbn [map concat]. rewrite E, !app_nil_r, <- !app_assoc.
  change (header_line (B "Subject") (m_subject m)) with (B "Subject: " ++ m_subject m ++ CRLF).
  rewrite <- ?app_assoc. reflexivity.
Qed.

Lemma rcpt_text : forall a, no_nul (a_email a) -> cstr (rcpt_command a) = rcpt_line a.
Proof.
  intros a H. apply nn_cstr. unfold rcpt_command. apply nn_app; [nolit|]. apply nn_app; [exact H|]. nolit.
Qed.
Lemma sender_text : forall a, address_text_ok a -> map cstr (mail_formats a) = sender_lines a.
Proof.
  intros a [He Hn]. unfold mail_formats, sender_lines. cbn [map]. f_equal; [|f_equal; [|f_equal]]; apply nn_cstr;
    repeat first [apply nn_app | exact He | exact Hn | nolit].
Qed.

Lemma success_accepted : forall m fs batch l, text_ok m -> success m fs batch l -> accepted_mail fs m batch l.
Proof.
  intros m fs batch dlg Tk (refused & line & reply & more & l & r1 & body & r2 & -> & M1 & A1 & A2 & M2 & A3 & A4 & Hb & A5).
  assert (Eb := body_real_eq _ _ _ Hb). subst body.
  exists (refused ++ [(line, reply)]), l, r1, (data_headers m ++ body_chunks (body_text fs m)), r2.
  assert (H1 : map cstr (data_headers m) = data_headers m) by (apply nn_concat; rewrite header_concat; apply nn_header, Tk).
  destruct (body_chunks_spec (body_text fs m)) as [Cc _].
  assert (H2 : map cstr (body_chunks (body_text fs m)) = body_chunks (body_text fs m)) by (apply nn_concat; rewrite Cc; apply nn_body, Tk).
  split; [|split; [|split; [|split; [exact A4|split; [exact A5|]]]]].
  - unfold said_all. rewrite H1, H2, silent_app, <- !app_assoc. reflexivity.
  - exists refused, line, reply, more. split; [reflexivity|]. rewrite <- (sender_text _ (to_from _ Tk)). auto.
  - split; [|exact A3]. rewrite M2. apply map_ext_in. intros a Ha. apply rcpt_text.
    assert (F := to_rcpt _ Tk). rewrite Forall_forall in F. apply (F a Ha).
  - rewrite concat_app, Cc, header_concat. reflexivity.
Qed.

Lemma send_accepted : forall m s s' t, text_ok m -> sendMail m s = (Done 0, s') -> s_t s' = s_t s ++ t -> standard t -> fields_written t ->
  exists conn mail, phases (c_conn (s_c s)) t conn mail /\ accepted_mail (e_fs (s_e s)) m (c_batch (s_c s)) mail.
Proof.
  intros m s s' t Tk H T S W. destruct (send_success _ _ _ _ H T S W) as (conn & mail & P & Q).
  exists conn, mail. split; [exact P|apply success_accepted; assumption].
Qed.

(** ** Bcc *)

Lemma headers_bcc : forall k f t c b b' su bo at', setMailHeaders (mkMsg k f t c b su bo at') = setMailHeaders (mkMsg k f t c b' su bo at').
Proof. reflexivity. Qed.
