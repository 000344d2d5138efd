(** The connection to a server that agrees, and the whole of sendMail. *)

From Coq Require Import Ascii String List NArith ZArith Bool Lia ZifyBool ZifyNat ZifyN.
From Verif Require Import Base Lib ModelUtil ModelBase64 ModelAddress ModelAttachment
  ModelErrors ModelReply ModelMessage ModelState ModelClient ModelWorld
  ProofSteps ProofWalk ProofPhases ProofEstablish ProofLog ProofSend ProofSafety
  SpecAddress SpecText SpecReply SpecMime SpecBase64 SpecDialogue SpecAuth SpecForward ProofReply ProofAddress ProofBase64 ProofMime
  ProofDialogue ProofMail ProofMail2 ProofMail3 ProofAuth ProofAuth2 ProofAuth3 ProofForward ProofForward2.
Import ListNotations.
Open Scope Z_scope.

Lemma positive_len : forall code r, positive code r -> (slen r < 1024)%N.
Proof. intros code r (_ & _ & _ & L). unfold slen. lia. Qed.
Lemma blank_cred : forall c c0, blank c = blank c0 -> c_cred c = c_cred c0.
Proof. intros c c0 H. exact (f_equal c_cred H). Qed.
Lemma blank_auth : forall c c0, blank c = blank c0 -> c_auth c = c_auth c0.
Proof. intros c c0 H. exact (f_equal c_auth H). Qed.
Lemma blank_sock : forall c c0, blank c = blank c0 -> c_sock c = c_sock c0.
Proof. intros c c0 H. exact (f_equal c_sock H). Qed.
Lemma blank_server : forall c c0, blank c = blank c0 -> c_server c = c_server c0.
Proof. intros c c0 H. exact (f_equal c_server H). Qed.
Lemma blank_port : forall c c0, blank c = blank c0 -> c_port c = c_port c0.
Proof. intros c c0 H. exact (f_equal c_port H). Qed.
Lemma blank_self : forall c c0, blank c = blank c0 -> c_selfsigned c = c_selfsigned c0.
Proof. intros c c0 H. exact (f_equal c_selfsigned H). Qed.

(** Authentication. *)
Lemma goes_mechanism : forall tls c0 e0 rest rs2 k cr rs, quiet e0 -> (0 < c_timeout c0)%N -> carries tls c0 ->
  answers (auth_steps k (cr_user cr) (cr_pass cr)) rs ->
  goes c0 (arriving tls (rs ++ rs2) rest e0) (run_mechanism k cr) 235 (combine (script k cr) rs) c0 (arriving tls rs2 rest e0) 8000.
Proof.
  intros tls c0 e0 rest rs2 k cr rs Q Tm Ch A. pose proof (script_nonul k cr) as Sn. destruct k; cbn [auth_steps run_mechanism script] in *.
  - inversion A as [|x r l rs' P A' E1 E2]; subst. inversion A'; subst. cbn [snd] in P. cbn [app combine]. pose proof (positive_len _ _ P).
    unfold authPlain. eapply goes_more; [eapply goes_then; [apply goes_logc|]|].
    + apply goes_fb'; try assumption; [apply Sn; left; reflexivity|exact (positive_fits _ _ P)|apply p235, P|discriminate].
    + change (slen (B "AUTH PLAIN ***************" ++ CRLF)) with 28%N. lia.
  - inversion A as [|x r l rs' P A' E1 E2]; subst. inversion A' as [|x2 r2 l2 rs2' P2 A2 E3 E4]; subst. inversion A2 as [|x3 r3 l3 rs3' P3 A3 E5 E6]; subst. inversion A3; subst.
    cbn [snd] in *. cbn [app combine]. pose proof (positive_len _ _ P). pose proof (positive_len _ _ P2). pose proof (positive_len _ _ P3).
    match goal with |- goes _ _ _ _ [?a; ?b; ?c] _ _ _ => change [a; b; c] with ([a] ++ [b] ++ [c]) end.
    unfold authLogin. eapply goes_more; [eapply goes_then; [apply goes_logc|]; eapply (goes_bind _ _ _ 334)|].
    + apply goes_fb'; try assumption; [apply Sn; left; reflexivity|exact (positive_fits _ _ P)|apply p334, P|discriminate].
    + cbn [Z.eqb Pos.eqb negb STATUS_CODE_SERVER_CHALLENGE]. eapply (goes_bind _ _ _ 334).
      * apply goes_fb'; try assumption; [apply Sn; right; left; reflexivity|exact (positive_fits _ _ P2)|apply p334, P2|discriminate].
      * cbn [Z.eqb Pos.eqb negb STATUS_CODE_SERVER_CHALLENGE]. apply goes_fb'; try assumption; [apply Sn; right; right; left; reflexivity|exact (positive_fits _ _ P3)|apply p235, P3|discriminate].
    + change (slen (B "AUTH LOGIN ***************" ++ CRLF)) with 28%N. lia.
  - inversion A as [|x r l rs' P A' E1 E2]; subst. inversion A'; subst. cbn [snd] in P. cbn [app combine]. pose proof (positive_len _ _ P).
    unfold authXOauth2. eapply goes_more; [eapply goes_then; [apply goes_logc|]|].
    + apply goes_fb'; try assumption; [apply Sn; left; reflexivity|exact (positive_fits _ _ P)|apply p235, P|discriminate].
    + change (slen (B "XOauth 2 ***************" ++ CRLF)) with 26%N. lia.
Qed.
Lemma script_listed : forall k cr rs, answers (auth_steps k (cr_user cr) (cr_pass cr)) rs ->
  as_listed (combine (script k cr) rs) (combine (map fst (auth_steps k (cr_user cr) (cr_pass cr))) rs).
Proof.
  assert (L : forall a x, base64_line (B a) x (B a ++ Encode x ++ CRLF)) by (intros; apply encode_line).
  intros [] cr rs A; cbn [auth_steps script] in *.
  - inversion A as [|x r l rs' P A' E1 E2]; subst. inversion A'; subst. constructor; [|constructor]. split; [apply (encode_line (B "AUTH PLAIN "))|reflexivity].
  - inversion A as [|x r l rs' P A' E1 E2]; subst. inversion A' as [|x2 r2 l2 rs2' P2 A2 E3 E4]; subst. inversion A2 as [|x3 r3 l3 rs3' P3 A3 E5 E6]; subst. inversion A3; subst.
    constructor; [split; reflexivity|]. constructor; [split; [apply (encode_line [])|reflexivity]|]. constructor; [split; [apply (encode_line [])|reflexivity]|]. constructor.
  - inversion A as [|x r l rs' P A' E1 E2]; subst. inversion A'; subst. constructor; [|constructor]. split; [apply (encode_line (B "AUTH XOAUTH2 "))|reflexivity].
Qed.
Lemma login_now : forall tls c c0 e0 rest r rs2 steps rs, quiet e0 -> (0 < c_timeout c0)%N -> carries tls c0 -> c_cred c0 = c_cred c -> no_nul r ->
  c_auth c0 = extractAuthenticationOptions (Some (heard tls r)) -> login_steps c tls r steps -> answers steps rs ->
  exists l, goes c0 (arriving tls (rs ++ rs2) rest e0) authenticate_if_needed 0 l c0 (arriving tls rs2 rest e0) 8000 /\ as_listed l (combine (map fst steps) rs).
Proof.
  intros tls c c0 e0 rest r rs2 steps rs Q Tm Ch Cc Nn Ca L A. unfold login_steps in L. rewrite <- Cc in L. destruct (c_cred c0) as [cr|] eqn:Ec.
  - destruct L as (k & Pk & ->). exists (combine (script k cr) rs). split; [|apply script_listed, A].
    destruct (preferred_choice tls r cr k Nn Pk) as (o & Eo & Ek). unfold authenticate_if_needed. apply goes_getc. intros x Bx. rewrite (blank_cred _ _ Bx), Ec.
    eapply (goes_last _ _ _ 235); [|apply goes_ret]. intros n s N R.
    rewrite (authenticate_eq s cr o); [|rewrite (blank_cred _ _ (proj1 R)); exact Ec|rewrite (blank_auth _ _ (proj1 R)), Ca; exact Eo]. rewrite Ek.
    exact (goes_mechanism tls c0 e0 rest rs2 k cr rs Q Tm Ch A n s N R).
  - subst steps. inversion A; subst. exists []. split; [|constructor]. cbn [app]. unfold authenticate_if_needed. apply goes_getc. intros x Bx. rewrite (blank_cred _ _ Bx), Ec.
    eapply goes_more; [apply goes_ret|lia].
Qed.

(** TLS. *)
Lemma goes_setter : forall c0 e0 g, (forall c, c_log (g c) = c_log c /\ c_logsize (g c) = c_logsize c) ->
  (forall c, blank (g c) = g (blank c)) -> goes c0 e0 (updc g) tt [] (g c0) e0 0.
Proof. intros c0 e0 g Hl Hb. apply goes_updc; [exact Hb|exact Hl|]. intros c H. rewrite !Hb, H. reflexivity. Qed.
Definition secured (c : client) (e : env) : client := set_bio (Some (mkBio (S (e_next e)) (c_sock c))) (set_ctx (Some (e_next e)) c).
Definition after_tls (more : list tls_res) (e : env) : env := set_next (S (S (e_next e))) (set_tls more e).
Lemma goes_negotiation : forall c0 e0 t more name, e_tls e0 = t :: more -> t_ctx t = true -> t_bio t = true -> t_paths t = true -> t_connect t = true -> t_handshake t = true ->
  t_cert t = true -> (t_verify t = 0 \/ (t_verify t = 18 /\ c_selfsigned c0 = true)) -> c_server c0 = Some name -> (slen name + 1 + slen (dec_of_N (c_port c0)) + 1 <= 1024)%N ->
  goes c0 e0 startTLSNegotiation 0 [] (secured c0 e0) (after_tls more e0) 400.
Proof.
  intros c0 e0 t more name Et H1 H2 H3 H4 H5 H6 Hv Hn Hl. unfold startTLSNegotiation.
  eapply goes_more.
  - eapply goes_then; [apply goes_logc|]. apply goes_gete. rewrite Et. eapply goes_then; [apply goes_upde|]. rewrite H1. cbn [negb].
    eapply (goes_then _ _ _ (e_next e0)); [unfold fresh_id; apply goes_gete; eapply goes_then; [apply goes_upde|apply goes_ret]|].
    eapply goes_then; [apply goes_emit; exact Logic.I|]. eapply goes_then; [apply goes_setter; [intros; split; reflexivity|reflexivity]|]. rewrite H2. cbn [negb].
    eapply (goes_then _ _ _ (S (e_next e0))); [unfold fresh_id; apply goes_gete; eapply goes_then; [apply goes_upde|apply goes_ret]|].
    match goal with |- goes ?a _ _ _ _ _ _ _ => set (c1 := a) end.
    match goal with |- goes _ ?a _ _ _ _ _ _ => set (e1 := a) end.
    apply goes_getc. intros c Bc. rewrite (blank_sock _ _ Bc), (blank_server _ _ Bc), (blank_port _ _ Bc).
    eapply goes_then; [apply goes_emit; exact Logic.I|]. eapply goes_then; [apply goes_setter; [intros; split; reflexivity|reflexivity]|].
    change (c_server c1) with (c_server c0). change (c_port c1) with (c_port c0). rewrite Hn. 
    destruct (N.ltb_spec SERVERNAMEANDPORT_LENGTH (slen name + 1 + slen (dec_of_N (c_port c0)) + 1)) as [X|_]; [unfold SERVERNAMEANDPORT_LENGTH in X; lia|].
    rewrite H3, H4, H5, H6. cbn [negb]. eapply goes_then; [apply goes_log|]. eapply goes_then; [apply goes_emit; exact Logic.I|].
    eapply goes_then; [apply goes_log|]. eapply goes_then; [apply goes_emit; exact Logic.I|]. eapply goes_then; [apply goes_emit; exact Logic.I|].
    match goal with |- goes ?a ?b _ _ _ _ _ _ => set (c2 := a) end.
    apply (goes_getc _ _ _ _ _ _ _ 112). intros c' Bc'. rewrite (blank_self _ _ Bc'). change (c_selfsigned c2) with (c_selfsigned c0).
    destruct Hv as [-> | [-> ->]]; cbn [Z.eqb Pos.eqb andb negb X509_V_OK X509_V_ERR_DEPTH_ZERO_SELF_SIGNED_CERT].
    + eapply goes_more; [eapply goes_then; [apply goes_logc|apply goes_ret]|]. vm_compute. discriminate.
    + eapply goes_more; [eapply goes_then; [apply goes_logs|]; eapply goes_then; [apply goes_logc|apply goes_ret]|]. vm_compute. discriminate.
  - vm_compute. discriminate.
Qed.

(** ** The connection *)
Definition prefix (K : M Z) : M Z :=
  r <- initializeSession;;
  if negb (r =? 0) then ret r else
  g <- checkServerGreetings;;
  if negb (g =? STATUS_CODE_SERVICE_READY) then ret g else
  i <- sendServerIdentification;;
  if negb (i =? STATUS_CODE_REQUESTED_MAIL_ACTION_OK_OR_COMPLETED) then ret i else K.
Lemma trying_len : forall name port, (slen name + 1 + slen (dec_of_N port) + 1 <= 1024)%N -> (2 * slen (trying name port) + 4 <= 3000)%N.
Proof.
  intros name port H. unfold trying. rewrite !slen_app. change (slen (B "Trying to connect to ")) with 21%N. change (slen (B " on port ")) with 9%N. lia.
Qed.
Lemma prefix_now : forall s g r rs rest fd more, reliable (s_e s) -> e_sock (s_e s) = SkFd fd :: more -> named (s_c s) -> (0 < c_timeout (s_c s))%N -> reaches false (s_c s) ->
  positive "220" g -> complete r -> e_recv (s_e s) = RData g :: in_clear (r :: rs) ++ rest ->
  exists s' t, (forall K, prefix K s = K s') /\
    ready (set_auth (extractAuthenticationOptions (Some r)) (set_sock (Z.of_N fd) (s_c s))) (arriving false rs rest (set_esock more (s_e s))) 8000 s' /\
    s_t s' = s_t s ++ t /\ exchanges t = [(EHLO_line, r)] /\ full_writes t /\ c_resp (s_c s') = Some r.
Proof.
  intros s g r rs rest fd more Rl Hs (name & Hn & Hl) Tm Ch Pg Cr Hr. pose proof (trying_len _ _ Hl) as Tl.
  destruct (initialize_now s fd more name Rl Hs Hn ltac:(unfold LIM; lia)) as (s1 & t1 & E1 & R1 & T1 & K1).
  set (c1 := set_sock (Z.of_N fd) (s_c s)) in *. set (e1 := set_esock more (s_e s)) in *. apply (ready_more _ _ _ 3000 _ Tl) in R1.
  assert (Q1 : quiet e1) by (destruct Rl; split; [assumption|split; assumption]).
  pose proof (positive_len _ _ Pg). pose proof (positive_len _ _ (proj1 Cr)).
  destruct (greet_clear c1 e1 g (in_clear (r :: rs) ++ rest) Tm Pg Hr 3000%N s1 ltac:(unfold LIM; lia) R1) as (s2 & t2 & E2 & R2 & T2 & K2 & F2).
  destruct (ehlo_now false c1 e1 r rs rest SOCKET_INIT_CLIENT_SEND_EHLO_ERROR SOCKET_INIT_CLIENT_SEND_EHLO_TIMEOUT (3000 + (2 * slen g + 28))%N s2 Q1 Tm Ch Cr ltac:(unfold LIM; lia) R2)
    as (s3 & t3 & E3 & R3 & T3 & K3 & C3). cbn [heard] in *.
  exists s3, (t1 ++ t2 ++ t3). split; [|split; [|split; [|split; [|split]]]].
  - intros K. unfold prefix, bind at 1. rewrite E1. cbn [Z.eqb negb]. unfold bind at 1. rewrite E2. cbn [Z.eqb Pos.eqb negb STATUS_CODE_SERVICE_READY].
    unfold bind at 1, sendServerIdentification. rewrite E3. reflexivity.
  - eapply ready_more; [|exact R3]. lia.
  - rewrite T3, T2, T1, !app_assoc. reflexivity.
  - rewrite mute_front by (exact (talk_exchanges _ _ (proj1 K1))). rewrite mute_front by exact K2. exact (talk_exchanges _ _ (proj1 K3)).
  - apply full_app; [exact (proj2 K1)|]. apply full_app; [exact F2|exact (proj2 K3)].
  - exact C3.
Qed.

Lemma arriving_bread : forall e rs rest, e_bread e = map RData rs ++ rest -> arriving true rs rest e = e.
Proof. intros [] rs rest H. cbn in *. rewrite H. reflexivity. Qed.
(** EHLO over TLS, then the authentication. *)
Lemma secure_now : forall c c1 e1 r rs rs2 rest steps n s, quiet e1 -> (0 < c_timeout c1)%N -> carries true c1 -> c_cred c1 = c_cred c -> complete r ->
  login_steps c true r steps -> answers steps rs -> (n <= 20000)%N -> ready c1 (arriving true (r :: rs ++ rs2) rest e1) n s ->
  exists s' t l, (s <- getServerSecureIdentification;; if negb (s =? STATUS_CODE_REQUESTED_MAIL_ACTION_OK_OR_COMPLETED) then ret s else authenticate_if_needed) s = (Done 0, s') /\
    ready (set_auth (extractAuthenticationOptions (Some (heard true r))) c1) (arriving true rs2 rest e1) (n + 12000) s' /\ s_t s' = s_t s ++ t /\
    talks t ((EHLO_line, r) :: l) /\ as_listed l (combine (map fst steps) rs).
Proof.
  intros c c1 e1 r rs rs2 rest steps n s Q Tm Ch Cc Cr Ls A N R. pose proof (positive_len _ _ (proj1 Cr)).
  unfold getServerSecureIdentification. unfold bind at 1. unfold bind at 1.
  destruct (goes_logc c1 (arriving true (r :: rs ++ rs2) rest e1) (B "Contacting the server again but via the secure channel...") n s) as (s1 & t1 & E1 & R1 & T1 & K1);
    [change (slen _) with 57%N; unfold LIM; lia|exact R|]. rewrite E1. change (2 * slen _ + 4)%N with 118%N in R1.
  destruct Ch as (Ck & Cp & b & Cb).
  destruct (ehlo_now true c1 e1 r (rs ++ rs2) rest SSL_CLIENT_INITSECURECLIENT_ERROR SSL_CLIENT_INITSECURECLIENT_TIMEOUT (n + 118)%N s1 Q Tm
    (conj Ck (ex_intro _ b Cb)) Cr ltac:(unfold LIM; lia) R1) as (s2 & t2 & E2 & R2 & T2 & K2 & C2). rewrite E2. cbn [Z.eqb Pos.eqb negb STATUS_CODE_REQUESTED_MAIL_ACTION_OK_OR_COMPLETED].
  destruct (login_now true c (set_auth (extractAuthenticationOptions (Some (heard true r))) c1) e1 rest r rs2 steps rs Q Tm
     (conj Ck (conj Cp (ex_intro _ b Cb))) Cc (proj1 (proj2 (proj1 Cr))) eq_refl Ls A) as (l & G & Al).
  pose proof (fun X => G _ s2 X R2) as G'. destruct (G' ltac:(unfold LIM; lia)) as (s3 & t3 & E3 & R3 & T3 & K3).
  exists s3, (t1 ++ t2 ++ t3), l. split; [exact E3|]. split; [eapply ready_more; [|exact R3]; lia|]. split; [rewrite T3, T2, T1, !app_assoc; reflexivity|].
  split; [|exact Al]. exact (talks_app _ _ _ _ K1 (talks_app _ _ _ _ K2 K3)).
Qed.

Lemma goes_last2 : forall {A C} c0 e0 (m : M A) a l c1 e1 k (f : A -> M C) b c2 e2 k2,
  goes c0 e0 m a l c1 e1 k -> goes c1 e1 (f a) b [] c2 e2 k2 -> goes c0 e0 (bind m f) b l c2 e2 (k + k2).
Proof. intros A C c0 e0 m a l c1 e1 k f b c2 e2 k2 H1 H2. rewrite <- (app_nil_r l). eapply goes_bind; eassumption. Qed.
Definition rest_opp : M Z :=
  c <- getc;;
  tls <- lift (isStartTLSSupported (c_resp c));;
  if tls then
    logc (B "Info: STARTTLS is available by the server, the communication will be encrypted.");;
    u <- upgradeToSecureConnection;;
    if negb (u =? STATUS_CODE_SERVICE_READY) then ret u else
    t <- startTLSNegotiation;;
    if negb (t =? 0) then ret t else
    s <- getServerSecureIdentification;;
    if negb (s =? STATUS_CODE_REQUESTED_MAIL_ACTION_OK_OR_COMPLETED) then ret s else
    authenticate_if_needed
  else
    logc (B "Info: STARTTLS is not an available option by the server, the communication will then remain unencrypted.");;
    updc (set_keep true);;
    ret 0.
Definition established (tls : bool) (turns : list ((str -> Prop) * str)) (rs : list str) (rest : list recv_res) (s : st) : Prop :=
  exists s' t l c1 e1, establish s = (Done 0, s') /\ ready c1 (arriving tls rs rest e1) 32768 s' /\ s_t s' = s_t s ++ t /\ exchanges t = l /\ full_writes t /\ as_listed l turns /\
    quiet e1 /\ e_fs e1 = e_fs (s_e s) /\ carries tls c1 /\ c_timeout c1 = c_timeout (s_c s) /\ c_batch c1 = c_batch (s_c s).
Lemma establish_now : forall tls clear secure turns s rs more1 more2, session (s_c s) tls clear secure turns -> reliable (s_e s) ->
  (tls = true -> negotiates (s_c s) (s_e s)) -> named (s_c s) -> (0 < c_timeout (s_c s))%N ->
  e_recv (s_e s) = clear ++ (if tls then [] else in_clear rs) ++ more1 -> (tls = true -> e_bread (s_e s) = over_tls (secure ++ rs) ++ more2) ->
  established tls turns rs (if tls then more2 else more1) s.
Proof.
  intros tls clear secure turns s rs more1 more2 S Rl Ng Nm Tm Hr Hb. destruct (rl_sock _ Rl) as (fd & more & Hs).
  assert (Q1 : quiet (set_esock more (s_e s))) by (destruct Rl; split; [assumption|split; assumption]).
  destruct S as [g r steps ars Kd Pg Cr Ls A | g r Kd Bn Pg Cr A7 No | g r r' r2 steps ars Kd Bn Rp Pg Cr A7 Of Pr C2 Ls A | g r steps ars Kd Rp Pg Cr Ls A].
  - assert (Hr' : e_recv (s_e s) = RData g :: in_clear (r :: ars ++ rs) ++ more1).
    { rewrite Hr. unfold in_clear. cbn [flat_map app]. rewrite flat_map_app, <- !app_assoc. reflexivity. }
    destruct (prefix_now s g r (ars ++ rs) more1 fd more Rl Hs Nm Tm (or_introl Kd) Pg Cr Hr') as (s1 & t1 & E1 & R1 & T1 & K1 & F1 & C1).
    set (c1 := set_auth (extractAuthenticationOptions (Some r)) (set_sock (Z.of_N fd) (s_c s))) in *.
    destruct (login_now false (s_c s) c1 (set_esock more (s_e s)) more1 r rs steps ars Q1 Tm (or_introl Kd) eq_refl (proj1 (proj2 (proj1 Cr))) eq_refl Ls A) as (l & G & Al).
    destruct (G 8000%N s1 ltac:(unfold LIM; lia) R1) as (s2 & t2 & E2 & R2 & T2 & K2).
    exists s2, (t1 ++ t2), ((EHLO_line, r) :: l), c1, (set_esock more (s_e s)).
    split; [unfold establish, bind at 1, getc; rewrite Kd; change establishPlain with (prefix authenticate_if_needed); rewrite E1; exact E2|].
    split; [eapply ready_more; [|exact R2]; lia|]. split; [rewrite T2, T1, app_assoc; reflexivity|].
    split; [rewrite (exchanges_app _ _ _ (proj1 K2)), K1; reflexivity|]. split; [apply full_app; [exact F1|exact (proj2 K2)]|].
    split; [constructor; [split; reflexivity|exact Al]|]. split; [exact Q1|]. split; [reflexivity|]. split; [left; exact Kd|split; reflexivity].
  - assert (Hr' : e_recv (s_e s) = RData g :: in_clear (r :: rs) ++ more1) by (rewrite Hr; reflexivity).
    destruct (prefix_now s g r rs more1 fd more Rl Hs Nm Tm (or_intror Bn) Pg Cr Hr') as (s1 & t1 & E1 & R1 & T1 & K1 & F1 & C1).
    set (c1 := set_auth (extractAuthenticationOptions (Some r)) (set_sock (Z.of_N fd) (s_c s))) in *.
    assert (Cs : cstr r = r) by (apply cstr_nonul; exact (proj1 (proj2 (proj1 Cr)))).
    destruct (starttls_spec r ltac:(rewrite Cs; exact A7)) as (b & Eb & Hb'). rewrite Cs in Hb'. destruct b; [exfalso; apply No; apply Hb'; reflexivity|].
    assert (G : goes c1 (arriving false rs more1 (set_esock more (s_e s)))
       (logc (B "Info: STARTTLS is not an available option by the server, the communication will then remain unencrypted.");; updc (set_keep true);; ret 0) 0 []
       (set_keep true c1) (arriving false rs more1 (set_esock more (s_e s))) 1000).
    { eapply goes_more; [eapply goes_then; [apply goes_logc|]; eapply goes_then; [apply goes_setter; [intros; split; reflexivity|reflexivity]|apply goes_ret]|].
      vm_compute. discriminate. }
    destruct (G 8000%N s1 ltac:(unfold LIM; lia) R1) as (s2 & t2 & E2 & R2 & T2 & K2).
    exists s2, (t1 ++ t2), [(EHLO_line, r)], (set_keep true c1), (set_esock more (s_e s)).
    split; [unfold establish, bind at 1, getc; rewrite Kd; change establishOpp with (prefix rest_opp); rewrite E1; unfold rest_opp, bind at 1, getc; rewrite C1; unfold bind at 1, lift; rewrite Eb; exact E2|].
    split; [eapply ready_more; [|exact R2]; lia|]. split; [rewrite T2, T1, app_assoc; reflexivity|].
    split; [rewrite (exchanges_app _ _ _ (proj1 K2)), K1; reflexivity|]. split; [apply full_app; [exact F1|exact (proj2 K2)]|].
    split; [constructor; [split; reflexivity|constructor]|]. split; [exact Q1|]. split; [reflexivity|]. split; [right; reflexivity|split; reflexivity].
  - specialize (Hb eq_refl). destruct (Ng eq_refl) as (t & moret & Et & H1 & H2 & H3 & H4 & H5 & H6 & Hv). destruct Nm as (name & Hn & Hl).
    assert (Hr' : e_recv (s_e s) = RData g :: in_clear [r; r'] ++ more1) by (rewrite Hr; reflexivity).
    destruct (prefix_now s g r [r'] more1 fd more Rl Hs (ex_intro _ name (conj Hn Hl)) Tm (or_intror Bn) Pg Cr Hr') as (s1 & t1 & E1 & R1 & T1 & K1 & F1 & C1).
    set (c1 := set_auth (extractAuthenticationOptions (Some r)) (set_sock (Z.of_N fd) (s_c s))) in *. set (e0 := set_esock more (s_e s)) in *.
    assert (Cs : cstr r = r) by (apply cstr_nonul; exact (proj1 (proj2 (proj1 Cr)))).
    destruct (starttls_spec r ltac:(rewrite Cs; exact A7)) as (b & Eb & Hb'). rewrite Cs in Hb'. destruct b; [|exfalso; apply Hb' in Of; discriminate Of].
    set (e1 := arriving false [] more1 e0). set (e2 := after_tls moret e1). set (c2 := secured c1 e1).
    assert (G : goes c1 (arriving false [r'] more1 e0)
       (logc (B "Info: STARTTLS is available by the server, the communication will be encrypted.");; upgradeToSecureConnection) 220 [(B "STARTTLS" ++ CRLF, r')] c1 e1 3000).
    { pose proof (positive_len _ _ Pr).
      eapply goes_more; [eapply goes_then; [apply goes_logc|]|].
      - unfold upgradeToSecureConnection. eapply goes_then; [apply goes_logc|]. intros n x N R.
        destruct (asks_raw3 c1 e0 (B "STARTTLS" ++ CRLF) r' [] more1 SOCKET_INIT_CLIENT_SEND_STARTTLS_ERROR SOCKET_INIT_CLIENT_SEND_STARTTLS_TIMEOUT Q1 Tm (positive_fits _ _ Pr)
          ltac:(rewrite (p220 false r' Pr); discriminate) n x R N) as (x' & tx & Ex & Rx & Tx & Kx & _). rewrite (p220 false r' Pr) in Ex.
        exists x', tx. split; [exact Ex|]. split; [exact Rx|]. split; [exact Tx|exact Kx].
      - change (slen (B "Info: STARTTLS is available by the server, the communication will be encrypted.")) with 79%N. change (slen (B "STARTTLS" ++ CRLF)) with 10%N. lia. }
    destruct (G 8000%N s1 ltac:(unfold LIM; lia) R1) as (s1b & t1b & E1b & R1b & T1b & K1b).
    assert (Gn : goes c1 e1 startTLSNegotiation 0 [] c2 e2 400) by (apply (goes_negotiation c1 e1 t moret name); assumption).
    destruct (Gn 11000%N s1b ltac:(unfold LIM; lia) R1b) as (s2 & t2 & E2 & R2 & T2 & K2).
    assert (Q2 : quiet e2) by exact Q1.
    assert (Ch : carries true c2). { split; [change (c_kind c2) with (c_kind (s_c s)); rewrite Kd; discriminate|]. split; [exact Rp|eexists; reflexivity]. }
    assert (Eb2 : arriving true (r2 :: ars ++ rs) more2 e2 = e2) by (apply arriving_bread; exact Hb). rewrite <- Eb2 in R2.
    destruct (secure_now (s_c s) c2 e2 r2 ars rs more2 steps 11400%N s2 Q2 Tm Ch eq_refl C2 Ls A ltac:(lia) R2) as (s3 & t3 & l & E3 & R3 & T3 & K3 & Al).
    exists s3, (t1 ++ t1b ++ t2 ++ t3). eexists _, _, e2.
    split. { unfold establish, bind at 1, getc; rewrite Kd; change establishOpp with (prefix rest_opp); rewrite E1; unfold rest_opp, bind at 1, getc; rewrite C1; unfold bind at 1, lift; rewrite Eb.
      unfold bind at 1 in E1b. unfold bind at 1. destruct (logc _ s1) as [[] x]; try discriminate E1b. unfold bind at 1. rewrite E1b.
      cbn [Z.eqb Pos.eqb negb STATUS_CODE_SERVICE_READY]. unfold bind at 1. rewrite E2. exact E3. }
    split; [eapply ready_more; [|exact R3]; lia|]. split; [rewrite T3, T2, T1b, T1, !app_assoc; reflexivity|].
    pose proof (talks_app _ _ _ _ K1b (talks_app _ _ _ _ K2 K3)) as K. split; [rewrite (exchanges_app _ _ _ (proj1 K)), K1; reflexivity|]. split; [apply full_app; [exact F1|exact (proj2 K)]|].
    split; [constructor; [split; reflexivity|]; constructor; [split; reflexivity|]; constructor; [split; reflexivity|exact Al]|]. split; [exact Q2|]. split; [reflexivity|]. split; [exact Ch|split; reflexivity].
  - specialize (Hb eq_refl). destruct (Ng eq_refl) as (t & moret & Et & H1 & H2 & H3 & H4 & H5 & H6 & Hv). destruct Nm as (name & Hn & Hl).
    pose proof (trying_len _ _ Hl) as Tl.
    destruct (initialize_now s fd more name Rl Hs Hn ltac:(unfold LIM; lia)) as (s1 & t1 & E1 & R1 & T1 & K1).
    set (c1 := set_sock (Z.of_N fd) (s_c s)) in *. set (e1 := set_esock more (s_e s)) in *. apply (ready_more _ _ _ 3000 _ Tl) in R1.
    set (e2 := after_tls moret e1). set (c2 := secured c1 e1).
    assert (Gn : goes c1 e1 startTLSNegotiation 0 [] c2 e2 400) by (apply (goes_negotiation c1 e1 t moret name); assumption).
    destruct (Gn 3000%N s1 ltac:(unfold LIM; lia) R1) as (s2 & t2 & E2 & R2 & T2 & K2).
    assert (Q2 : quiet e2) by exact Q1.
    assert (Ch : carries true c2). { split; [change (c_kind c2) with (c_kind (s_c s)); rewrite Kd; discriminate|]. split; [exact Rp|eexists; reflexivity]. }
    assert (Eb2 : arriving true (g :: r :: ars ++ rs) more2 e2 = e2) by (apply arriving_bread; exact Hb). rewrite <- Eb2 in R2.
    pose proof (positive_len _ _ Pg).
    destruct (greet_tls c2 e2 g (r :: ars ++ rs) more2 _ Tm Pg eq_refl 3400%N s2 ltac:(unfold LIM; lia) R2) as (s3 & t3 & E3 & R3 & T3 & K3 & F3).
    destruct (secure_now (s_c s) c2 e2 r ars rs more2 steps (3400 + (2 * slen g + 28))%N s3 Q2 Tm Ch eq_refl Cr Ls A ltac:(lia) R3) as (s4 & t4 & l & E4 & R4 & T4 & K4 & Al).
    exists s4, (t1 ++ t2 ++ t3 ++ t4). eexists _, _, e2.
    split. { unfold establish, bind at 1, getc; rewrite Kd. unfold establishForced, bind at 1. rewrite E1. cbn [Z.eqb negb]. unfold bind at 1. rewrite E2. cbn [Z.eqb negb]. unfold bind at 1. rewrite E3. exact E4. }
    split; [eapply ready_more; [|exact R4]; lia|]. split; [rewrite T4, T3, T2, T1, !app_assoc; reflexivity|].
    split; [rewrite mute_front by (exact (talk_exchanges _ _ (proj1 K1))); rewrite mute_front by (exact (talk_exchanges _ _ (proj1 K2))); rewrite mute_front by exact K3; exact (talk_exchanges _ _ (proj1 K4))|].
    split; [apply full_app; [exact (proj2 K1)|]; apply full_app; [exact (proj2 K2)|]; apply full_app; [exact F3|exact (proj2 K4)]|].
    split; [constructor; [split; reflexivity|exact Al]|]. split; [exact Q2|]. split; [reflexivity|]. split; [exact Ch|split; reflexivity].
Qed.
