(** The connection to a server that announces no usable mechanism. *)

From Coq Require Import Ascii String List NArith ZArith Bool Lia ZifyBool ZifyNat ZifyN.
From Verif Require Import Base Lib ModelUtil ModelBase64 ModelAddress ModelAttachment
  ModelErrors ModelReply ModelMessage ModelState ModelClient ModelWorld
  ProofSteps ProofWalk ProofPhases ProofEstablish ProofLog ProofSend ProofSafety
  SpecAddress SpecText SpecReply SpecMime SpecBase64 SpecDialogue SpecAuth SpecForward ProofReply ProofAddress ProofBase64 ProofMime
  ProofDialogue ProofMail ProofMail2 ProofMail3 ProofMail4 ProofAuth ProofAuth2 ProofAuth3 ProofForward ProofForward2 ProofForward3 ProofForward4.
Import ListNotations.
Open Scope Z_scope.

Lemma unusable_choice : forall tls r cr, no_nul r -> unusable tls r cr ->
  exists o, extractAuthenticationOptions (Some (heard tls r)) = Some o /\ choice o (cr_method cr) = None.
Proof.
  intros tls r cr Nn (Ns & line & A & Np). rewrite heard_visible by exact Nn.
  assert (Nv : no_nul (visible tls r)). { destruct tls; [|exact Nn]. cbn [visible]. intros X. apply Nn. destruct r as [|x r]; [exact X|]. rewrite (@app_removelast_last _ (x :: r) NUL) by discriminate. apply in_or_app. left. exact X. }
  assert (Ml : exists a b, visible tls r = a ++ CRLF ++ b).
  { destruct (find_sub CRLF (visible tls r)) as [i|] eqn:E.
    - apply find_sub_some in E as (a & b & E & _). eauto.
    - exfalso. apply Ns. intros a b. exact (proj1 (find_sub_none CRLF _) E a b). }
  destruct (announced_extract _ _ Nv A Ml) as (o & Eo & O). exists o. split; [exact Eo|].
  destruct (choice o (cr_method cr)) as [k|] eqn:Ec; [|reflexivity].
  destruct (choice_some _ _ _ _ Ec O) as (Cp & W & _). exfalso. exact (Np k Cp W).
Qed.
Lemma login_refused : forall c0 e0 tls r cr, no_nul r -> c_cred c0 = Some cr -> c_auth c0 = extractAuthenticationOptions (Some (heard tls r)) -> unusable tls r cr ->
  goes c0 e0 authenticate_if_needed CLIENT_AUTHENTICATION_METHOD_NOTSUPPORTED [] c0 e0 0.
Proof.
  intros c0 e0 tls r cr Nn Cc Ca U. destruct (unusable_choice _ _ _ Nn U) as (o & Eo & Ek). unfold authenticate_if_needed.
  apply goes_getc. intros x Bx. rewrite (blank_cred _ _ Bx), Cc.
  eapply (goes_last _ _ _ CLIENT_AUTHENTICATION_METHOD_NOTSUPPORTED); [|apply goes_ret]. intros n s N R.
  rewrite (authenticate_eq s cr o); [|rewrite (blank_cred _ _ (proj1 R)); exact Cc|rewrite (blank_auth _ _ (proj1 R)), Ca; exact Eo]. rewrite Ek.
  exact (goes_ret c0 e0 CLIENT_AUTHENTICATION_METHOD_NOTSUPPORTED n s N R).
Qed.
Lemma secure_refused : forall cr c1 e1 r rs rest n s, quiet e1 -> (0 < c_timeout c1)%N -> carries true c1 -> c_cred c1 = Some cr -> complete r ->
  unusable true r cr -> (n <= 20000)%N -> ready c1 (arriving true (r :: rs) rest e1) n s ->
  exists s' t, (s <- getServerSecureIdentification;; if negb (s =? STATUS_CODE_REQUESTED_MAIL_ACTION_OK_OR_COMPLETED) then ret s else authenticate_if_needed) s
      = (Done CLIENT_AUTHENTICATION_METHOD_NOTSUPPORTED, s') /\ s_t s' = s_t s ++ t /\ talks t [(EHLO_line, r)].
Proof.
  intros cr c1 e1 r rs rest n s Q Tm Ch Cc Cr U N R. pose proof (positive_len _ _ (proj1 Cr)).
  unfold getServerSecureIdentification. unfold bind at 1. unfold bind at 1.
  destruct (goes_logc c1 (arriving true (r :: rs) rest e1) (B "Contacting the server again but via the secure channel...") n s) as (s1 & t1 & E1 & R1 & T1 & K1);
    [change (slen _) with 57%N; unfold LIM; lia|exact R|]. rewrite E1. change (2 * slen _ + 4)%N with 118%N in R1.
  destruct Ch as (Ck & Cp & b & Cb).
  destruct (ehlo_now true c1 e1 r rs rest SSL_CLIENT_INITSECURECLIENT_ERROR SSL_CLIENT_INITSECURECLIENT_TIMEOUT (n + 118)%N s1 Q Tm
    (conj Ck (ex_intro _ b Cb)) Cr ltac:(unfold LIM; lia) R1) as (s2 & t2 & E2 & R2 & T2 & K2 & C2). rewrite E2. cbn [Z.eqb Pos.eqb negb STATUS_CODE_REQUESTED_MAIL_ACTION_OK_OR_COMPLETED].
  pose proof (login_refused (set_auth (extractAuthenticationOptions (Some (heard true r))) c1) (arriving true rs rest e1) true r cr (proj1 (proj2 (proj1 Cr))) Cc eq_refl U) as G.
  pose proof (fun X => G _ s2 X R2) as G'. destruct (G' ltac:(unfold LIM; lia)) as (s3 & t3 & E3 & R3 & T3 & K3).
  exists s3, (t1 ++ t2 ++ t3). split; [exact E3|]. split; [rewrite T3, T2, T1, !app_assoc; reflexivity|].
  exact (talks_app _ _ _ _ K1 (talks_app _ _ _ _ K2 K3)).
Qed.
Lemma establish_refused : forall tls clear secure l s cr more1 more2, session_without (s_c s) cr tls clear secure l -> c_cred (s_c s) = Some cr -> reliable (s_e s) ->
  (tls = true -> negotiates (s_c s) (s_e s)) -> named (s_c s) -> (0 < c_timeout (s_c s))%N ->
  e_recv (s_e s) = clear ++ more1 -> (tls = true -> e_bread (s_e s) = over_tls secure ++ more2) ->
  exists s' t, establish s = (Done CLIENT_AUTHENTICATION_METHOD_NOTSUPPORTED, s') /\ s_t s' = s_t s ++ t /\ exchanges t = l /\ full_writes t.
Proof.
  intros tls clear secure l s cr more1 more2 S Cc Rl Ng Nm Tm Hr Hb. destruct (rl_sock _ Rl) as (fd & more & Hs).
  assert (Q1 : quiet (set_esock more (s_e s))) by (destruct Rl; split; [assumption|split; assumption]).
  destruct S as [g r Kd Pg Cr U | g r r' r2 Kd Bn Rp Pg Cr A7 Of Pr C2 U | g r Kd Rp Pg Cr U].
  - assert (Hr' : e_recv (s_e s) = RData g :: in_clear (r :: []) ++ more1) by (rewrite Hr; reflexivity).
    destruct (prefix_now s g r [] more1 fd more Rl Hs Nm Tm (or_introl Kd) Pg Cr Hr') as (s1 & t1 & E1 & R1 & T1 & K1 & F1 & C1).
    set (c1 := set_auth (extractAuthenticationOptions (Some r)) (set_sock (Z.of_N fd) (s_c s))) in *.
    pose proof (login_refused c1 (arriving false [] more1 (set_esock more (s_e s))) false r cr (proj1 (proj2 (proj1 Cr))) Cc eq_refl U) as G.
    destruct (G 8000%N s1 ltac:(unfold LIM; lia) R1) as (s2 & t2 & E2 & R2 & T2 & K2).
    exists s2, (t1 ++ t2).
    split; [unfold establish, bind at 1, getc; rewrite Kd; change establishPlain with (prefix authenticate_if_needed); rewrite E1; exact E2|].
    split; [rewrite T2, T1, app_assoc; reflexivity|].
    split; [rewrite (exchanges_app _ _ _ (proj1 K2)), K1; reflexivity|]. apply full_app; [exact F1|exact (proj2 K2)].
  - specialize (Hb eq_refl). destruct (Ng eq_refl) as (t & moret & Et & H1 & H2 & H3 & H4 & H5 & H6 & Hv). destruct Nm as (name & Hn & Hl).
    assert (Hr' : e_recv (s_e s) = RData g :: in_clear [r; r'] ++ more1) by (rewrite Hr; reflexivity).
    destruct (prefix_now s g r [r'] more1 fd more Rl Hs (ex_intro _ name (conj Hn Hl)) Tm (or_intror Bn) Pg Cr Hr') as (s1 & t1 & E1 & R1 & T1 & K1 & F1 & C1).
    set (c1 := set_auth (extractAuthenticationOptions (Some r)) (set_sock (Z.of_N fd) (s_c s))) in *. set (e0 := set_esock more (s_e s)) in *.
    assert (Cs : cstr r = r) by (apply cstr_nonul; exact (proj1 (proj2 (proj1 Cr)))).
    destruct (starttls_spec r ltac:(rewrite Cs; exact A7)) as (b & Eb & Hb'). rewrite Cs in Hb'. destruct b; [|exfalso; apply Hb' in Of; discriminate Of].
    set (e1 := arriving false [] more1 e0). set (e2 := after_tls moret e1). set (c2 := secured c1 e1).
    assert (G : goes c1 (arriving false [r'] more1 e0)
       (logc (B "Info: STARTTLS is available by the server, the communication will be encrypted.");; upgradeToSecureConnection) 220 [(B "STARTTLS" ++ CRLF, r')] c1 e1 3000).
    { pose proof (positive_len _ _ Pr).
      eapply goes_more; [eapply goes_then; [apply goes_logc|]|].
      - unfold upgradeToSecureConnection. eapply goes_then; [apply goes_logc|]. intros n x N R.
        destruct (asks_raw3 c1 e0 (B "STARTTLS" ++ CRLF) r' [] more1 SOCKET_INIT_CLIENT_SEND_STARTTLS_ERROR SOCKET_INIT_CLIENT_SEND_STARTTLS_TIMEOUT Q1 Tm (positive_fits _ _ Pr)
          ltac:(rewrite (p220 false r' Pr); discriminate) n x R N) as (x' & tx & Ex & Rx & Tx & Kx & _). rewrite (p220 false r' Pr) in Ex.
        exists x', tx. split; [exact Ex|]. split; [exact Rx|]. split; [exact Tx|exact Kx].
      - change (slen (B "Info: STARTTLS is available by the server, the communication will be encrypted.")) with 79%N. change (slen (B "STARTTLS" ++ CRLF)) with 10%N. lia. }
    destruct (G 8000%N s1 ltac:(unfold LIM; lia) R1) as (s1b & t1b & E1b & R1b & T1b & K1b).
    assert (Gn : goes c1 e1 startTLSNegotiation 0 [] c2 e2 400) by (apply (goes_negotiation c1 e1 t moret name); assumption).
    destruct (Gn 11000%N s1b ltac:(unfold LIM; lia) R1b) as (s2 & t2 & E2 & R2 & T2 & K2).
    assert (Q2 : quiet e2) by exact Q1.
    assert (Ch : carries true c2). { split; [change (c_kind c2) with (c_kind (s_c s)); rewrite Kd; discriminate|]. split; [exact Rp|eexists; reflexivity]. }
    assert (Eb2 : arriving true (r2 :: []) more2 e2 = e2) by (apply arriving_bread; exact Hb). rewrite <- Eb2 in R2.
    destruct (secure_refused cr c2 e2 r2 [] more2 11400%N s2 Q2 Tm Ch Cc C2 U ltac:(lia) R2) as (s3 & t3 & E3 & T3 & K3).
    exists s3, (t1 ++ t1b ++ t2 ++ t3).
    split. { unfold establish, bind at 1, getc; rewrite Kd; change establishOpp with (prefix rest_opp); rewrite E1; unfold rest_opp, bind at 1, getc; rewrite C1; unfold bind at 1, lift; rewrite Eb.
      unfold bind at 1 in E1b. unfold bind at 1. destruct (logc _ s1) as [[] x]; try discriminate E1b. unfold bind at 1. rewrite E1b.
      cbn [Z.eqb Pos.eqb negb STATUS_CODE_SERVICE_READY]. unfold bind at 1. rewrite E2. exact E3. }
    split; [rewrite T3, T2, T1b, T1, !app_assoc; reflexivity|].
    pose proof (talks_app _ _ _ _ K1b (talks_app _ _ _ _ K2 K3)) as K. split; [rewrite (exchanges_app _ _ _ (proj1 K)), K1; reflexivity|]. apply full_app; [exact F1|exact (proj2 K)].
  - specialize (Hb eq_refl). destruct (Ng eq_refl) as (t & moret & Et & H1 & H2 & H3 & H4 & H5 & H6 & Hv). destruct Nm as (name & Hn & Hl).
    pose proof (trying_len _ _ Hl) as Tl.
    destruct (initialize_now s fd more name Rl Hs Hn ltac:(unfold LIM; lia)) as (s1 & t1 & E1 & R1 & T1 & K1).
    set (c1 := set_sock (Z.of_N fd) (s_c s)) in *. set (e1 := set_esock more (s_e s)) in *. apply (ready_more _ _ _ 3000 _ Tl) in R1.
    set (e2 := after_tls moret e1). set (c2 := secured c1 e1).
    assert (Gn : goes c1 e1 startTLSNegotiation 0 [] c2 e2 400) by (apply (goes_negotiation c1 e1 t moret name); assumption).
    destruct (Gn 3000%N s1 ltac:(unfold LIM; lia) R1) as (s2 & t2 & E2 & R2 & T2 & K2).
    assert (Q2 : quiet e2) by exact Q1.
    assert (Ch : carries true c2). { split; [change (c_kind c2) with (c_kind (s_c s)); rewrite Kd; discriminate|]. split; [exact Rp|eexists; reflexivity]. }
    assert (Eb2 : arriving true (g :: r :: []) more2 e2 = e2) by (apply arriving_bread; exact Hb). rewrite <- Eb2 in R2.
    pose proof (positive_len _ _ Pg).
    destruct (greet_tls c2 e2 g (r :: []) more2 _ Tm Pg eq_refl 3400%N s2 ltac:(unfold LIM; lia) R2) as (s3 & t3 & E3 & R3 & T3 & K3 & F3).
    destruct (secure_refused cr c2 e2 r [] more2 (3400 + (2 * slen g + 28))%N s3 Q2 Tm Ch Cc Cr U ltac:(lia) R3) as (s4 & t4 & E4 & T4 & K4).
    exists s4, (t1 ++ t2 ++ t3 ++ t4).
    split. { unfold establish, bind at 1, getc; rewrite Kd. unfold establishForced, bind at 1. rewrite E1. cbn [Z.eqb negb]. unfold bind at 1. rewrite E2. cbn [Z.eqb negb]. unfold bind at 1. rewrite E3. exact E4. }
    split; [rewrite T4, T3, T2, T1, !app_assoc; reflexivity|].
    split; [rewrite mute_front by (exact (talk_exchanges _ _ (proj1 K1))); rewrite mute_front by (exact (talk_exchanges _ _ (proj1 K2))); rewrite mute_front by exact K3; exact (talk_exchanges _ _ (proj1 K4))|].
    apply full_app; [exact (proj2 K1)|]; apply full_app; [exact (proj2 K2)|]; apply full_app; [exact F3|exact (proj2 K4)].
Qed.
Lemma world_none_applies : forall i c cr m w tls clear secure l more1 more2, get_client w i = Some c -> c_conn c = false -> c_cred c = Some cr ->
  session_without c cr tls clear secure l -> reliable (w_env w) -> (tls = true -> negotiates c (w_env w)) -> named c -> (0 < c_timeout c)%N ->
  e_recv (w_env w) = clear ++ more1 -> (tls = true -> e_bread (w_env w) = over_tls secure ++ more2) ->
  exists w' t, step (OSend i m) w = (Done CLIENT_AUTHENTICATION_METHOD_NOTSUPPORTED, w') /\ w_trace w' = w_trace w ++ t /\ exchanges t = l /\
    transmitted t = concat (map fst l).
Proof.
  intros i c cr m w tls clear secure l more1 more2 G Cn Cc S Rl Ng Nm Tm Hr Hb.
  destruct (establish_refused tls clear secure l (mkSt c (w_env w) (w_trace w)) cr more1 more2 S Cc Rl Ng Nm Tm Hr Hb) as (s' & t & E & T & X & F).
  eexists _, t. split; [cbn [step]; unfold run_on; rewrite G; unfold sendMail, bind at 1, getc; cbn [s_c]; rewrite Cn; unfold bind at 1; rewrite E; reflexivity|].
  split; [exact T|]. split; [exact X|]. rewrite (full_transmitted _ F). unfold written. rewrite X. reflexivity.
Qed.
Lemma unusable_checked : forall tls r cr line, no_nul (visible tls r) -> announced (visible tls r) line -> (exists a b, visible tls r = a ++ CRLF ++ b) ->
  match extractAuthenticationOptions (Some (visible tls r)) with Some o => choice o (cr_method cr) = None | None => False end -> unusable tls r cr.
Proof.
  intros tls r cr line Nv A Ml H. destruct (announced_extract _ _ Nv A Ml) as (o & Eo & O). destruct (extractAuthenticationOptions _) as [o'|] eqn:E' in H; [|destruct H].
  assert (Z : Some o' = Some o) by (rewrite <- E'; exact Eo). injection Z as ->.
  split; [intros X; destruct Ml as (a & b & E); exact (X a b E)|]. exists line. split; [exact A|exact (choice_none _ _ _ H O)].
Qed.
