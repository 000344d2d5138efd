(** A whole mail against a server that agrees. *)

From Coq Require Import Ascii String List NArith ZArith Bool Lia ZifyBool ZifyNat ZifyN.
From Verif Require Import Base Lib ModelUtil ModelBase64 ModelAddress ModelAttachment
  ModelErrors ModelReply ModelMessage ModelState ModelClient ModelWorld
  ProofSteps ProofWalk ProofPhases ProofEstablish ProofLog ProofSend ProofSafety
  SpecAddress SpecText SpecReply SpecMime SpecBase64 SpecDialogue SpecAuth SpecForward ProofReply ProofAddress ProofBase64 ProofMime
  ProofDialogue ProofMail ProofMail2 ProofMail3 ProofAuth ProofAuth2 ProofAuth3 ProofForward.
Import ListNotations.
Open Scope Z_scope.

Lemma over_bio : forall c b, c_bio c = Some b -> exists b, c_bio c = Some b.
Proof. eauto. Qed.
Definition mail_talk (fs : filesystem) (m : message) (batch : bool) (rf : str) (rr : list str) (rd re : str) : list (str * str) :=
  ((hd [] (sender_lines (m_from m)), rf) :: combine (map rcpt_line (recipients m)) rr) ++ ((DATA_line, rd) :: silent (data_headers m)) ++
  (silent (body_chunks (body_text fs m)) ++ (END_line, re) :: goodbye batch).
Lemma transaction_now : forall tls c0 e0 rest m rf rr rd re n s, quiet e0 -> (0 < c_timeout c0)%N -> carries tls c0 ->
  text_ok m -> message_ok m -> positive "250" rf -> Forall (positive "250") rr -> length rr = length (recipients m) -> positive "354" rd -> positive "250" re ->
  (n + (4 + volume (mail_talk (e_fs e0) m (c_batch c0) rf rr rd re)) <= LIM)%N ->
  ready c0 (arriving tls (rf :: rr ++ [rd; re]) rest e0) n s ->
  exists s' t, mail_transaction m s = (Done 0, s') /\ s_t s' = s_t s ++ t /\ talks t (mail_talk (e_fs e0) m (c_batch c0) rf rr rd re).
Proof.
  intros tls c0 e0 rest m rf rr rd re n s Q Tm Ch Tk Mk P1 P2 L P3 P4 N R. unfold mail_talk in *. rewrite !volume_app in N.
  destruct (goes_recipients tls c0 e0 rest Q Tm Ch m rf rr [rd; re] Tk P1 P2 L n s ltac:(lia) R) as (s1 & t1 & E1 & R1 & T1 & K1).
  pose proof (fun X => goes_headers tls c0 e0 rest Q Tm Ch m rd [re] Tk Mk P3 _ s1 X R1) as H2. destruct (H2 ltac:(lia)) as (s2 & t2 & E2 & R2 & T2 & K2).
  pose proof (fun X => goes_body tls c0 e0 rest Q Tm Ch m re [] Tk Mk P4 _ s2 X R2) as H3. destruct (H3 ltac:(rewrite volume_app; lia)) as (s3 & t3 & E3 & R3 & T3 & K3).
  unfold mail_transaction, bind at 1. rewrite E1. cbn [Z.eqb negb]. unfold bind at 1. rewrite E2. cbn [Z.eqb negb]. unfold bind at 1. rewrite E3. cbn [Z.eqb negb].
  unfold bind at 1, getc. rewrite (blank_batch _ _ (proj1 R3)). pose proof (talks_app _ _ _ _ K1 (talks_app _ _ _ _ K2 K3)) as K.
  destruct (c_batch c0) eqn:Eb.
  - exists s3, (t1 ++ t2 ++ t3). split; [reflexivity|]. split; [rewrite T3, T2, T1, !app_assoc; reflexivity|exact K].
  - unfold bind at 1. rewrite cleanup_plain by (rewrite (blank_batch _ _ (proj1 R3)), Eb; reflexivity). destruct (deaf_teardown s3) as (t4 & T4 & D4).
    exists (teardown s3), ((t1 ++ t2 ++ t3) ++ t4). split; [reflexivity|]. split; [rewrite T4, T3, T2, T1, !app_assoc; reflexivity|].
    pose proof (dialogue_deaf t4 [] D4) as X. rewrite app_nil_r in X. pose proof (talks_app _ _ _ _ K (mute_talks t4 X)) as Y. rewrite app_nil_r in Y. exact Y.
Qed.

(** ** The connection *)

(** Like [goes], but something may be heard before the first write. *)
Definition goes0 {A} (c0 : client) (e0 : env) (m : M A) (a : A) (l : list (str * str)) (c1 : client) (e1 : env) (k : N) : Prop :=
  forall n s, (n + k <= LIM)%N -> ready c0 e0 n s ->
  exists s' t, m s = (Done a, s') /\ ready c1 e1 (n + k) s' /\ s_t s' = s_t s ++ t /\ exchanges t = l /\ full_writes t.
Lemma goes_goes0 : forall {A} c0 e0 (m : M A) a l c1 e1 k, goes c0 e0 m a l c1 e1 k -> goes0 c0 e0 m a l c1 e1 k.
Proof. intros A c0 e0 m a l c1 e1 k H n s N R. destruct (H n s N R) as (s' & t & E & R' & T & K & F). exists s', t. repeat (split; [assumption|]). split; [exact (talk_exchanges _ _ K)|exact F]. Qed.
Lemma goes0_bind : forall {A C} c0 e0 (m : M A) a l1 c1 e1 k1 (f : A -> M C) b l2 c2 e2 k2,
  goes0 c0 e0 m a l1 c1 e1 k1 -> goes c1 e1 (f a) b l2 c2 e2 k2 -> goes0 c0 e0 (bind m f) b (l1 ++ l2) c2 e2 (k1 + k2).
Proof.
  intros A C c0 e0 m a l1 c1 e1 k1 f b l2 c2 e2 k2 H1 H2 n s N R.
  destruct (H1 n s ltac:(lia) R) as (s1 & t1 & E1 & R1 & T1 & K1 & F1). destruct (H2 (n + k1)%N s1 ltac:(lia) R1) as (s2 & t2 & E2 & R2 & T2 & K2 & F2).
  exists s2, (t1 ++ t2). unfold bind. rewrite E1, E2. split; [reflexivity|]. split; [rewrite N.add_assoc; exact R2|].
  split; [rewrite T2, T1, app_assoc; reflexivity|]. split; [rewrite (exchanges_app _ _ _ K2), K1; reflexivity|apply full_app; assumption].
Qed.
Lemma mute_front : forall a b, exchanges a = [] -> exchanges (a ++ b) = exchanges b.
Proof.
  unfold exchanges. induction a as [|ev a IH]; intros b H; [reflexivity|].
  destruct ev; cbn [app dialogue] in *; try (apply IH; exact H); try (destruct r);
    try (destruct (dialogue a) as [h l]; cbn [snd] in H; try discriminate H; specialize (IH b H); destruct (dialogue (a ++ b)); cbn [snd] in *; exact IH);
    try (apply IH; exact H).
Qed.
Lemma goes0_mute : forall {A C} c0 e0 (m : M A) a c1 e1 k1 (f : A -> M C) b l c2 e2 k2,
  goes0 c0 e0 m a [] c1 e1 k1 -> goes0 c1 e1 (f a) b l c2 e2 k2 -> goes0 c0 e0 (bind m f) b l c2 e2 (k1 + k2).
Proof.
  intros A C c0 e0 m a c1 e1 k1 f b l c2 e2 k2 H1 H2 n s N R.
  destruct (H1 n s ltac:(lia) R) as (s1 & t1 & E1 & R1 & T1 & K1 & F1). destruct (H2 (n + k1)%N s1 ltac:(lia) R1) as (s2 & t2 & E2 & R2 & T2 & K2 & F2).
  exists s2, (t1 ++ t2). unfold bind. rewrite E1, E2. split; [reflexivity|]. split; [rewrite N.add_assoc; exact R2|].
  split; [rewrite T2, T1, app_assoc; reflexivity|]. split; [rewrite (mute_front _ _ K1); exact K2|apply full_app; assumption].
Qed.
Lemma goes0_more : forall {A} c0 e0 (m : M A) a l c1 e1 k k', goes0 c0 e0 m a l c1 e1 k -> (k <= k')%N -> goes0 c0 e0 m a l c1 e1 k'.
Proof.
  intros A c0 e0 m a l c1 e1 k k' H L n s N R. destruct (H n s ltac:(lia) R) as (s' & t & E & R' & T & K). exists s', t.
  split; [exact E|]. split; [eapply ready_more; [|exact R']; lia|]. auto.
Qed.

(** Opening the socket. *)
Definition trying (name : str) (port : N) : str := B "Trying to connect to " ++ name ++ B " on port " ++ dec_of_N port.
Lemma initialize_now : forall s fd more name, reliable (s_e s) -> e_sock (s_e s) = SkFd fd :: more -> c_server (s_c s) = Some name ->
  (2 * slen (trying name (c_port (s_c s))) + 4 <= LIM)%N ->
  exists s' t, initializeSession s = (Done 0, s') /\ ready (set_sock (Z.of_N fd) (s_c s)) (set_esock more (s_e s)) (2 * slen (trying name (c_port (s_c s))) + 4) s' /\
    s_t s' = s_t s ++ t /\ talks t [].
Proof.
  intros s fd more name [Q1 Q2 Q3 Q4 Q5 _] Hs Hn N. unfold initializeSession, bind at 1, updc. unfold initializeSessionPOSIX, bind at 1, gete. cbn [s_e]. rewrite Hs.
  unfold bind at 1, upde. unfold bind at 1, emit. unfold bind at 1, updc. unfold bind at 1, getc. cbn [s_c s_e s_t c_server set_sock set_log]. rewrite Hn.
  set (s1 := mkSt _ _ _). unfold bind at 1, sys_gethostbyname. unfold bind at 1, gete. cbn [s_e s1]. change (e_host (set_esock more (s_e s))) with (e_host (s_e s)). rewrite Q4.
  unfold bind at 1, emit, ret. cbn [Z.ltb Z.compare Pos.compare Pos.compare_cont]. fold (@ret Z). cbn [s_c s_e s_t].
  match goal with |- context [bind setSocketToNonBlocking _ ?x] => set (s2 := x) end.
  set (e1 := set_esock more (s_e s)). set (c1 := set_sock (Z.of_N fd) (s_c s)).
  assert (Qe : quiet e1) by (split; [exact Q1|split; [exact Q2|exact Q3]]).
  assert (R2 : ready c1 e1 0 s2).
  { split; [reflexivity|]. split; [reflexivity|]. split; [apply (good_fresh s)|]. eexists. split; [reflexivity|]. cbn. lia. }
  assert (G : goes c1 e1 (nb <- setSocketToNonBlocking;; if negb (nb =? 0) then ret 1 else
     logc (trying name (c_port (s_c s)));; r <- sys_connect;;
     match r with
     | None => setSocketToBlocking
     | Some er => if er =? EINPROGRESS then w <- wait_connect;; (if w =? 0 then setSocketToBlocking else ret w)
         else log_errno er;; ret SOCKET_INIT_SESSION_CONNECT_ERROR end) 0 [] c1 e1 (0 + (2 * slen (trying name (c_port (s_c s))) + 4 + (0 + 0)))).
  { eapply goes_then; [apply goes_nonblocking, Qe|]. cbn [Z.eqb negb]. eapply goes_then; [apply goes_logc|].
    eapply (goes_then _ _ _ None); [|apply goes_blocking, Qe].
    intros n x Nx (A1 & A2 & A3). unfold sys_connect, bind, getc, gete. rewrite A2. change (e_conn e1) with (e_conn (s_e s)). rewrite Q5.
    eexists _, _. split; [reflexivity|]. rewrite N.add_0_r. split; [split; [exact A1|split; [exact A2|exact A3]]|]. split; [reflexivity|apply mute_talks; reflexivity]. }
  destruct (G 0%N s2 ltac:(lia) R2) as (s3 & t3 & E3 & R3 & T3 & K3). 
  exists s3, ([EvSocket (SkFd fd); EvResolve name true] ++ t3). split; [exact E3|]. split; [eapply ready_more; [|exact R3]; lia|]. split.
  - rewrite T3. cbn [s2 s1 s_t]. rewrite <- !app_assoc. reflexivity.
  - exact (talks_app [EvSocket (SkFd fd); EvResolve name true] t3 [] [] ltac:(apply mute_talks; reflexivity) K3).
Qed.

(** The greeting. *)
Lemma goes_greeted : forall c0 e0 g, positive "220" g -> goes c0 e0 (greeting_result (Some g)) 220 [] c0 e0 (2 * slen g + 28).
Proof.
  intros c0 e0 g P. unfold greeting_result. cbv zeta. pose proof (p220 true g P) as E. cbn [heard] in E. rewrite E.
  assert (Dl : (slen (drop_last_byte g) <= slen g)%N).
  { unfold drop_last_byte. pose proof (cstr_slen (firstn (length g - 1) g)) as X. pose proof (firstn_length (length g - 1) g) as Y. unfold slen in *. lia. }
  eapply goes_more; [eapply goes_then; [apply goes_logs|]; cbn [Z.eqb Pos.eqb STATUS_CODE_SERVICE_READY]; eapply goes_then; [apply goes_logc|apply goes_ret]|].
  change (slen (B "Connected!")) with 10%N. lia.
Qed.
Lemma greet_clear : forall c0 e0 g more, (0 < c_timeout c0)%N -> positive "220" g -> e_recv e0 = RData g :: more ->
  goes0 c0 e0 checkServerGreetings 220 [] c0 (set_recv more e0) (2 * slen g + 28).
Proof.
  intros c0 e0 g more Tm P Er n s N (A1 & A2 & A3). unfold checkServerGreetings, bind at 1, getc. unfold bind at 1, gete. rewrite A2, Er.
  pose proof (fits_first g (positive_fits _ _ P)) as E. cbn [wait_loop]. assert (Rb : rbytes (RData g) = g) by exact E. rewrite Rb.
  destruct g as [|x0 g0] eqn:Eg; [destruct P as (_ & _ & L & _); cbn in L; lia|]. rewrite <- Eg in *.
  rewrite (blank_timeout _ _ A1). destruct (N.ltb_spec 0 (c_timeout c0)); [|lia]. unfold bind at 1, upde. unfold bind at 1, emits. unfold bind at 1, lift. cbn [s_c s_e s_t].
  match goal with |- context [greeting_result _ ?x] => set (s1 := x) end.
  assert (R1 : ready c0 (set_recv more e0) n s1). { split; [exact A1|]. split; [cbn [s1 s_e]; rewrite A2; reflexivity|exact A3]. }
  destruct (goes_greeted c0 (set_recv more e0) g P n s1 N R1) as (s2 & t2 & E2 & R2 & T2 & K2 & F2).
  eexists s2, ([EvRecv (c_sock (s_c s)) (RData g)] ++ t2). split; [exact E2|]. split; [exact R2|]. split; [rewrite T2; cbn [s1 s_t]; rewrite <- app_assoc; reflexivity|].
  assert (X : exchanges ([EvRecv (c_sock (s_c s)) (RData g)] ++ t2) = []) by (rewrite (exchanges_app _ _ _ K2); reflexivity). split; [exact X|apply mute_full, X].
Qed.
Lemma greet_tls : forall c0 e0 g rs rest b, (0 < c_timeout c0)%N -> positive "220" g -> c_bio c0 = Some b ->
  goes0 c0 (arriving true (g :: rs) rest e0) checkServerGreetingsTLS 220 [] c0 (arriving true rs rest e0) (2 * slen g + 28).
Proof.
  intros c0 e0 g rs rest b Tm P Hb n s N (A1 & A2 & A3). unfold checkServerGreetingsTLS, wait_bio. unfold bind at 1. unfold bind at 1, getc. rewrite (blank_bio _ _ A1), Hb.
  unfold bind at 1, gete. rewrite A2. pose proof (fits_first g (positive_fits _ _ P)) as E. cbn [arriving e_bread set_bread map app wait_loop].
  assert (Rb : rbytes (RData g) = g) by exact E. rewrite Rb.
  destruct g as [|x0 g0] eqn:Eg; [destruct P as (_ & _ & L & _); cbn in L; lia|]. rewrite <- Eg in *.
  rewrite (blank_timeout _ _ A1). destruct (N.ltb_spec 0 (c_timeout c0)); [|lia]. unfold bind at 1, upde. unfold bind at 1, emits, lift. cbn [s_c s_e s_t].
  match goal with |- context [greeting_result _ ?x] => set (s1 := x) end.
  assert (R1 : ready c0 (arriving true rs rest e0) n s1). { split; [exact A1|]. split; [cbn [s1 s_e]; rewrite A2; reflexivity|exact A3]. }
  destruct (goes_greeted c0 (arriving true rs rest e0) g P n s1 N R1) as (s2 & t2 & E2 & R2 & T2 & K2 & F2).
  eexists s2, ([EvRead (bio_id b) (RData g)] ++ t2). split; [exact E2|]. split; [exact R2|]. split; [rewrite T2; cbn [s1 s_t]; rewrite <- app_assoc; reflexivity|].
  assert (X : exchanges ([EvRead (bio_id b) (RData g)] ++ t2) = []) by (rewrite (exchanges_app _ _ _ K2); reflexivity). split; [exact X|apply mute_full, X].
Qed.

(** EHLO. *)
Definition reaches (tls : bool) (c : client) : Prop :=
  if tls then c_kind c <> KPlain /\ exists b, c_bio c = Some b else c_kind c = KPlain \/ c_bio c = None.
Lemma asks_feedback : forall tls c0 e0 d r rs rest err tmo, quiet e0 -> (0 < c_timeout c0)%N -> fits r -> extractReturnCode (Some (heard tls r)) <> -1 ->
  reaches tls c0 -> asks tls c0 e0 (sendFeedback d err tmo) (cstr d) r rs rest.
Proof.
  intros tls c0 e0 d r rs rest err tmo Q Tm F Nm Ch n s R N. unfold sendFeedback, bind at 1, getc. rewrite (blank_kind _ _ (proj1 R)).
  destruct tls; cbn [reaches] in Ch.
  - destruct Ch as (K & b & Hb). destruct (c_kind c0) eqn:Ek; [contradiction| |]; apply (asks_tls c0 e0 d r rs rest err tmo b); try assumption; rewrite Ek; discriminate.
  - assert (X : c_bio c0 = None -> sendFeedbackTLS d err tmo s = sendRaw3 d err tmo s).
    { intros Hb. unfold sendFeedbackTLS, bind at 1, getc. rewrite (blank_bio _ _ (proj1 R)), Hb. reflexivity. }
    destruct (c_kind c0) eqn:Ek; [apply (asks_raw3 c0 e0); assumption| |]; (destruct Ch as [K|K]; [discriminate K|]); rewrite (X K); apply (asks_raw3 c0 e0); assumption.
Qed.
Lemma drop_visible : forall r, no_nul r -> drop_last_byte r = removelast r.
Proof.
  intros r N. unfold drop_last_byte.
  rewrite removelast_firstn_len. replace (pred (length r)) with (length r - 1)%nat by lia. apply cstr_nonul.
  intros X. apply N. rewrite <- (firstn_skipn (length r - 1) r). apply in_or_app. left. exact X.
Qed.
Lemma heard_visible : forall tls r, no_nul r -> heard tls r = visible tls r.
Proof. intros [] r N; [apply drop_visible, N|reflexivity]. Qed.
Lemma complete_all : forall tls r, complete r -> containsAllOptions (heard tls r) = true.
Proof.
  intros tls r ((_ & Nn & _) & before & last & E & Hb & S & St). rewrite heard_visible by exact Nn. subst r.
  destruct tls; cbn [visible]; [|apply containsAllOptions_terminated; assumption].
  assert (X : removelast (before ++ last ++ CRLF) = before ++ last ++ [CR]).
  { change CRLF with ([CR] ++ [LF]). rewrite !app_assoc. rewrite removelast_last. reflexivity. }
  rewrite X. apply containsAllOptions_unterminated; [exact Hb| | |].
  - intros a b Y. destruct (@exists_last _ b) as [b' [z Z]].
    + intros ->. rewrite app_nil_r in Y. change CRLF with ([CR] ++ [LF]) in Y. rewrite app_assoc in Y. apply app_inj_tail in Y as [_ Y]. discriminate Y.
    + subst b. rewrite !app_assoc in Y. apply app_inj_tail in Y as [Y _]. rewrite <- app_assoc in Y. exact (S _ _ Y).
  - destruct last; discriminate.
  - destruct St as [y ->]. exists (y ++ [CR]). rewrite <- app_assoc. reflexivity.
Qed.
Lemma ehlo_now : forall tls c0 e0 r rs rest err tmo n s, quiet e0 -> (0 < c_timeout c0)%N -> reaches tls c0 -> complete r ->
  (n + (2 * slen r + 40) <= LIM)%N -> ready c0 (arriving tls (r :: rs) rest e0) n s ->
  exists s' t, ehlo_with err tmo s = (Done 250, s') /\
    ready (set_auth (extractAuthenticationOptions (Some (heard tls r))) c0) (arriving tls rs rest e0) (n + (2 * slen r + 40)) s' /\
    s_t s' = s_t s ++ t /\ talks t [(EHLO_line, r)] /\ c_resp (s_c s') = Some (heard tls r).
Proof.
  intros tls c0 e0 r rs rest err tmo n s Q Tm Ch C N R. destruct C as [P C']. assert (C : complete r) by (split; assumption). clear C'. unfold ehlo_with.
  destruct (goes_logc c0 _ EHLO n s ltac:(change (slen EHLO) with 16%N; lia) R) as (s1 & t1 & E1 & R1 & T1 & K1). change (2 * slen EHLO + 4)%N with 36%N in R1. unfold bind at 1. rewrite E1.
  destruct (asks_feedback tls c0 e0 EHLO r rs rest err tmo Q Tm (positive_fits _ _ P) ltac:(rewrite (p250 tls r P); discriminate) Ch _ s1 R1 ltac:(lia)) as (s2 & t2 & E2 & R2 & T2 & K2 & C2).
  rewrite (p250 tls r P) in E2. unfold bind at 1. rewrite E2. cbn [Z.eqb Pos.eqb negb]. unfold bind at 1, getc. rewrite C2. unfold bind at 1, gete.
  cbn [ehlo_loop]. rewrite (complete_all tls r C). unfold bind at 1, updc. eexists _, (t1 ++ t2). split; [reflexivity|]. split; [|split; [|split]].
  - destruct R2 as (A1 & A2 & A3). apply (ready_more _ _ (n + 36 + (2 * slen r + 4))); [lia|]. split; [|split; [exact A2|exact A3]]. cbn [s_c]. 
    change (set_auth (extractAuthenticationOptions (Some (heard tls r))) (blank (s_c s2)) = set_auth (extractAuthenticationOptions (Some (heard tls r))) (blank c0)). rewrite A1. reflexivity.
  - cbn [s_t]. rewrite T2, T1, app_assoc. reflexivity.
  - exact (talks_app _ _ _ _ K1 K2).
  - exact C2.
Qed.

(** Authentication. *)
Lemma preferred_choice : forall tls r cr k, no_nul r -> preferred tls r cr k ->
  exists o, extractAuthenticationOptions (Some (heard tls r)) = Some o /\ choice o (cr_method cr) = Some k.
Proof.
  intros tls r cr k Nn (Ns & line & A & Cp & W & Np). rewrite heard_visible by exact Nn.
  assert (Nv : no_nul (visible tls r)). { destruct tls; [|exact Nn]. cbn [visible]. intros X. apply Nn. destruct r as [|x r]; [exact X|]. rewrite (@app_removelast_last _ (x :: r) NUL) by discriminate. apply in_or_app. left. exact X. }
  assert (Ml : exists a b, visible tls r = a ++ CRLF ++ b).
  { destruct (find_sub CRLF (visible tls r)) as [i|] eqn:E.
    - apply find_sub_some in E as (a & b & E & _). eauto.
    - exfalso. apply Ns. intros a b. exact (proj1 (find_sub_none CRLF _) E a b). }
  destruct (announced_extract _ _ Nv A Ml) as (o & Eo & O). exists o. split; [exact Eo|].
  destruct (choice o (cr_method cr)) as [k'|] eqn:Ec.
  - destruct (choice_some _ _ _ _ Ec O) as (Cp' & W' & Np'). f_equal.
    destruct (lt_eq_lt_dec (rank k') (rank k)) as [[X|X]|X].
    + exfalso. exact (Np k' X Cp' W').
    + destruct k, k'; cbn in X; try discriminate X; reflexivity.
    + exfalso. exact (Np' k X Cp W).
  - exfalso. exact (choice_none _ _ _ Ec O k Cp W).
Qed.
