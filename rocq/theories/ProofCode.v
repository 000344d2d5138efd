(** Where a non-zero result of a sending operation comes from. *)

From Coq Require Import Ascii String List NArith ZArith Bool Lia ZifyBool ZifyNat ZifyN.
From Verif Require Import Base Lib ModelUtil ModelAddress ModelAttachment ModelMessage ModelReply ModelErrors ModelState ModelClient
  SpecAddress SpecReply SpecErrors SpecDialogue SpecConn
  ProofReply ProofSteps ProofWalk ProofDialogue ProofMail ProofMail2 ProofMail3 ProofMail4.
Import ListNotations.
Open Scope Z_scope.

Definition coded (r : Z) (s s' : st) : Prop :=
  r = 0 \/ r = 1 \/ In r defined_codes \/ exists t, s_t s' = s_t s ++ t /\ refusal r t.
Definition codes (m : M Z) : Prop := forall s r s', m s = (Done r, s') -> coded r s s'.

Lemma coded_after : forall r s s1 s', ext s s1 -> coded r s1 s' -> coded r s s'.
Proof.
  intros r s s1 s' [a A] [H|[H|[H|(t & T & (b & p & c & -> & W & F & R))]]]; [left; exact H|right; left; exact H|right; right; left; exact H|].
  right. right. right. exists (a ++ b ++ p ++ c). split; [rewrite T, A, <- app_assoc; reflexivity|].
  exists (a ++ b), p, c. split; [rewrite <- app_assoc; reflexivity|]. auto.
Qed.
Lemma coded_before : forall r s s1 s' t, coded r s s1 -> s_t s' = s_t s1 ++ t -> Forall trailing (written t) -> coded r s s'.
Proof.
  intros r s s1 s' t2 [H|[H|[H|(t & T & (b & p & c & -> & W & F & R))]]] T2 F2; [left; exact H|right; left; exact H|right; right; left; exact H|].
  right. right. right. exists ((b ++ p ++ c) ++ t2). split; [rewrite T2, T, <- app_assoc; reflexivity|].
  exists b, p, (c ++ t2). split; [rewrite <- !app_assoc; reflexivity|]. split; [exact W|].
  split; [rewrite written_app; apply Forall_app; auto|exact R].
Qed.

Lemma codes_bind : forall {A} (m : M A) k, grows m -> (forall a, codes (k a)) -> codes (bind m k).
Proof.
  intros A m k G K s r s' H. apply bind_done in H as (a & s1 & H1 & H). specialize (G s). rewrite H1 in G.
  eapply coded_after; [exact G|]. eapply K, H.
Qed.
Lemma codes_if : forall m c k, codes m -> grows m -> codes k ->
  codes (bind m (fun a => if negb (a =? c) then ret a else k)).
Proof.
  intros m c k C G K s r s' H. apply bind_done in H as (a & s1 & H1 & H).
  destruct (negb (a =? c)); [apply ret_done in H as [-> ->]; eapply C, H1|].
  specialize (G s). rewrite H1 in G. eapply coded_after; [exact G|]. eapply K, H.
Qed.
Lemma codes_fi : forall m c k, codes m -> grows m -> codes k ->
  codes (bind m (fun a => if a =? c then k else ret a)).
Proof.
  intros m c k C G K s r s' H. apply bind_done in H as (a & s1 & H1 & H).
  destruct (a =? c); [|apply ret_done in H as [-> ->]; eapply C, H1].
  specialize (G s). rewrite H1 in G. eapply coded_after; [exact G|]. eapply K, H.
Qed.
Lemma codes_ret : forall r, r = 0 \/ r = 1 \/ In r defined_codes -> codes (ret r).
Proof. intros r D s x s' H. apply ret_done in H as [-> ->]. unfold coded. tauto. Qed.
Lemma codes_only : forall (m : M Z) (l : list Z), (forall s r s', m s = (Done r, s') -> In r l) ->
  (forall r, In r l -> r = 0 \/ r = 1 \/ In r defined_codes) -> codes m.
Proof. intros m l H D s r s' E. apply H, D in E. unfold coded. tauto. Qed.
Lemma codes_none : forall (m : M Z), (forall s r s', m s <> (Done r, s')) -> codes m.
Proof. intros m H s r s' E. exfalso. exact (H _ _ _ E). Qed.

(** ** A reply *)
Lemma reply_refusal : forall t h code, reads_only t -> dialogue t = (h, []) -> code_of h code -> code <> -1 -> refusal code t.
Proof.
  intros t h code R D C N. exists [], t, []. split; [symmetry; apply app_nil_r|].
  split; [unfold written, exchanges; rewrite D; reflexivity|]. split; [constructor|]. unfold heard. rewrite D. cbn [fst].
  destruct (Z_le_gt_dec 100 code) as [L|L]; [left; split; [exact L|apply code_of_digits; assumption]|].
  right. destruct C as (x & y & -> & E). pose proof (extract_bounds (Some x)). split; [lia|]. split.
  - intros Z. apply app_eq_nil in Z as [-> _]. apply N. rewrite E. reflexivity.
  - intros v V (c1 & c2 & c3 & v1 & v2 & v3 & r & X & D1 & D2 & D3 & Ev).
    destruct (Nat.ltb_spec (length (cstr x)) 3) as [S|S]; [rewrite extract_short in E by exact S; lia|].
    assert (exists r', x = c1 :: c2 :: c3 :: r') as [r' ->].
    { destruct (cstr_prefix x) as [z Z]. destruct x as [|a [|b [|c x]]]; cbn [app] in X;
        try (pose proof (f_equal (@length _) Z) as ZL; rewrite app_length in ZL; cbn [length] in ZL; lia).
      inversion X. eauto. }
    rewrite (extract_three_digits _ _ _ _ _ _ _ D1 D2 D3) in E. lia.
Qed.
Lemma codes_minus_one : forall s s', coded (-1) s s'.
Proof. intros. right. right. left. cbv. tauto. Qed.
Lemma reply_coded : forall s s' t h code, s_t s' = s_t s ++ t -> reads_only t -> dialogue t = (h, []) -> code_of h code -> coded code s s'.
Proof.
  intros s s' t h code T R D C. destruct (Z.eq_dec code (-1)) as [->|N]; [apply codes_minus_one|].
  right. right. right. exists t. split; [exact T|eapply reply_refusal; eassumption].
Qed.

Lemma exchange_coded : forall s s' d t h code, s_t s' = s_t s ++ t -> exchange d t h -> code_of h code -> coded code s s'.
Proof.
  intros s s' d t h code T (ev & rest & -> & W & R & D) C. destruct (Z.eq_dec code (-1)) as [->|N]; [apply codes_minus_one|].
  right. right. right. exists (ev :: rest). split; [exact T|].
  destruct (reply_refusal _ _ _ R D C N) as (b & p & c & -> & X). exists (ev :: b), p, c. split; [reflexivity|exact X].
Qed.
Ltac documented := first [left; reflexivity | right; left; reflexivity | right; right; cbv; tauto].
Lemma codes_fb : forall d err tmo, err <> 0 -> In err defined_codes -> In tmo defined_codes -> codes (sendFeedbackPtr d err tmo).
Proof.
  intros d err tmo N E T s r s' H. destruct (fb_done _ _ _ _ _ _ H N) as [->|[->|(_ & t & h & X & Y & Z)]];
    [right; right; left; exact E|right; right; left; exact T|eapply exchange_coded; eassumption].
Qed.
Lemma codes_feedback : forall d err tmo, err <> 0 -> In err defined_codes -> In tmo defined_codes -> codes (sendFeedback d err tmo).
Proof.
  intros d err tmo N E T s r s' H. destruct (feedback_done _ _ _ _ _ _ H N) as [->|[->|(_ & t & h & X & Y & Z)]];
    [right; right; left; exact E|right; right; left; exact T|eapply exchange_coded; eassumption].
Qed.
Lemma codes_raw3 : forall d err tmo, err <> 0 -> In err defined_codes -> In tmo defined_codes -> codes (sendRaw3 d err tmo).
Proof.
  intros d err tmo N E T s r s' H. destruct (raw3_done _ _ _ _ _ _ H N) as [->|[->|(_ & t & h & X & Y & Z)]];
    [right; right; left; exact E|right; right; left; exact T|eapply exchange_coded; eassumption].
Qed.
Lemma codes_cmd : forall d err, err <> 0 -> In err defined_codes -> codes (sendCommandPtr d err).
Proof.
  intros d err N E s r s' H. destruct (cmd_done _ _ _ _ _ H N) as [(-> & _)|(-> & _)]; [left; reflexivity|right; right; left; exact E].
Qed.

(** ** Everything only adds to the trace *)
Lemma grows_emit : forall ev, grows (emit ev).
Proof. intros ev s. exists [ev]. reflexivity. Qed.
Lemma grows_emits : forall l, grows (emits l).
Proof. intros l s. exists l. reflexivity. Qed.
Lemma grows_upde : forall f, grows (upde f).
Proof. intros f s. exists []. symmetry. apply app_nil_r. Qed.
Lemma grows_stop : forall {A} (o : outcome A), grows (fun s => (o, s)).
Proof. intros A o s. apply ext_refl. Qed.
Lemma grows_addLog : forall i p, grows (addLog i p).
Proof. intros i p. unfold addLog. apply grows_getc. intros c. destruct (c_log c); cbv zeta; repeat first [apply grows_updc | apply grows_stop | match goal with |- grows (if ?b then _ else _) => destruct b end]. Qed.
Lemma grows_getc0 : grows getc.
Proof. intros s. apply ext_refl. Qed.
Lemma grows_gete0 : grows gete.
Proof. intros s. apply ext_refl. Qed.
Ltac g1 :=
  lazymatch goal with
  | |- grows getc => apply grows_getc0
  | |- grows gete => apply grows_gete0
  | |- grows (ret _) => apply grows_ret
  | |- grows (fail_ub _) => apply grows_stop
  | |- grows blocked => apply grows_stop
  | |- grows diverge => apply grows_stop
  | |- grows killed => apply grows_stop
  | |- grows (updc _) => apply grows_updc
  | |- grows (upde _) => apply grows_upde
  | |- grows (emit _) => apply grows_emit
  | |- grows (emits _) => apply grows_emits
  | |- grows (setLastSocketErrNo _) => apply grows_updc
  | |- grows (setLastServerResponse _) => apply grows_updc
  | |- grows (lift _) => apply grows_lift
  | |- grows cleanup => apply grows_cleanup
  | |- grows getServerReply => apply grows_reply
  | |- grows getRawCommandReply => apply grows_raw_reply
  | |- grows (logc _) => apply grows_addLog
  | |- grows (logs _) => apply grows_addLog
  | |- grows (addLog _ _) => apply grows_addLog
  | |- grows (sendCommandPtr _ _) => apply grows_cmd
  | |- grows (sendFeedbackPtr _ _ _) => apply grows_fb
  | |- grows (address_header _ _) => apply grows_address_header
  | |- grows (recipients_loop _) => apply grows_recipients_loop
  | |- grows (setMailHeaders _) => apply grows_headers
  | |- grows (setMailBody _) => apply grows_body
  | |- grows (setMailRecipients _) => apply grows_recipients
  | |- grows (bind getc _) => apply grows_getc; intros ?
  | |- grows (bind gete _) => apply grows_gete; intros ?
  | |- grows (bind _ _) => apply grows_bind; [|intros ?]
  | |- grows (if ?b then _ else _) => destruct b
  | |- grows (match ?x with _ => _ end) => destruct x
  end.
Ltac gs := repeat (g1; cbv zeta).
Lemma grows_send : forall d, grows (sys_send d).
Proof. intros. unfold sys_send. gs. Qed.
Lemma grows_puts : forall b d, grows (sys_puts b d).
Proof. intros. unfold sys_puts. gs. Qed.
Lemma grows_sendRaw2 : forall d err, grows (sendRaw2 d err).
Proof. intros. unfold sendRaw2, sendRaw2_with. apply grows_bind; [apply grows_send|intros ?]. gs. Qed.
Lemma grows_raw3 : forall d err tmo, grows (sendRaw3 d err tmo).
Proof. intros. unfold sendRaw3. apply grows_bind; [apply grows_sendRaw2|intros ?]. gs. Qed.
Lemma grows_feedback : forall d err tmo, grows (sendFeedback d err tmo).
Proof.
  intros. unfold sendFeedback, sendFeedbackTLS. gs; try apply grows_raw3; apply grows_puts.
Qed.
Lemma grows_ehlo_loop : forall fuel tmo o, grows (ehlo_loop fuel tmo o).
Proof. induction fuel as [|f IH]; intros tmo o; cbn [ehlo_loop]; gs. apply IH. Qed.
Lemma grows_ehlo : forall err tmo, grows (ehlo_with err tmo).
Proof. intros. unfold ehlo_with. gs; [apply grows_feedback|apply grows_ehlo_loop]. Qed.
Lemma grows_fcntl : forall m, grows (sys_fcntl m).
Proof. intros. unfold sys_fcntl. gs. Qed.
Lemma grows_nonblocking : grows setSocketToNonBlocking.
Proof. unfold setSocketToNonBlocking, log_errno. gs; apply grows_fcntl. Qed.
Lemma grows_blocking : grows setSocketToBlocking.
Proof. unfold setSocketToBlocking, log_errno. gs; apply grows_fcntl. Qed.
Lemma grows_wait_connect : grows wait_connect.
Proof. unfold wait_connect, log_errno. gs. Qed.
Lemma grows_connect : grows sys_connect.
Proof. unfold sys_connect. gs. Qed.
Lemma grows_resolve : forall n, grows (sys_gethostbyname n).
Proof. intros. unfold sys_gethostbyname. gs. Qed.
Lemma grows_initialize : grows initializeSession.
Proof.
  unfold initializeSession, initializeSessionPOSIX, log_errno.
  gs; first [apply grows_nonblocking|apply grows_blocking|apply grows_wait_connect|apply grows_connect|apply grows_resolve].
Qed.
Lemma grows_greeting_result : forall r, grows (greeting_result r).
Proof. intros. unfold greeting_result. gs. Qed.
Lemma grows_greetings : grows checkServerGreetings.
Proof. unfold checkServerGreetings. gs. apply grows_greeting_result. Qed.
Lemma grows_wait_bio : grows wait_bio.
Proof. unfold wait_bio, wait_null_bio. gs. Qed.
Lemma grows_greetings_tls : grows checkServerGreetingsTLS.
Proof. unfold checkServerGreetingsTLS. apply grows_bind; [apply grows_wait_bio|intros; apply grows_greeting_result]. Qed.
Lemma grows_starttls : grows startTLSNegotiation.
Proof. unfold startTLSNegotiation, fresh_id. gs. Qed.
Lemma grows_upgrade : grows upgradeToSecureConnection.
Proof. unfold upgradeToSecureConnection. gs. apply grows_raw3. Qed.
Lemma grows_identify : grows sendServerIdentification.
Proof. apply grows_ehlo. Qed.
Lemma grows_identify_tls : grows getServerSecureIdentification.
Proof. unfold getServerSecureIdentification. gs. apply grows_ehlo. Qed.
Lemma grows_auth : grows authenticate_if_needed.
Proof. unfold authenticate_if_needed, authenticateClient, authPlain, authLogin, authXOauth2. gs. Qed.

(** ** The phases *)
Lemma codes_log : forall i k, codes k -> codes (logc i;; k).
Proof. intros. apply codes_bind; [apply grows_addLog|intros; assumption]. Qed.
Ltac doc := cbv; tauto.
Ltac c1 :=
  lazymatch goal with
  | |- codes (ret _) => apply codes_ret; documented
  | |- codes (fail_ub _) => apply codes_none; discriminate
  | |- codes blocked => apply codes_none; discriminate
  | |- codes diverge => apply codes_none; discriminate
  | |- codes killed => apply codes_none; discriminate
  | |- codes (sendCommandPtr _ _) => apply codes_cmd; [discriminate|doc]
  | |- codes (sendFeedbackPtr _ _ _) => apply codes_fb; [discriminate|doc|doc]
  | |- codes (sendFeedback _ _ _) => apply codes_feedback; [discriminate|doc|doc]
  | |- codes (sendRaw3 _ _ _) => apply codes_raw3; [discriminate|doc|doc]
  | |- codes (bind _ (fun a => if negb (a =? _) then ret a else _)) => apply codes_if
  | |- codes (bind _ (fun a => if a =? _ then _ else ret a)) => apply codes_fi
  | |- codes (bind _ _) => apply codes_bind; [|intros ?]
  | |- codes (if ?b then _ else _) => destruct b
  | |- codes (match ?x with _ => _ end) => destruct x
  | |- _ => g1
  end.
Ltac cs := repeat (c1; cbv zeta).
Lemma codes_nonblocking_ignored : forall (k : M Z), codes k -> codes (bind setSocketToNonBlocking (fun nb => if negb (nb =? 0) then ret 1 else k)).
Proof. intros k K. apply codes_bind; [apply grows_nonblocking|intros a]. destruct (negb _); [apply codes_ret; documented|exact K]. Qed.
Lemma codes_blocking : codes setSocketToBlocking.
Proof. unfold setSocketToBlocking, log_errno. cs; apply grows_fcntl. Qed.
Lemma codes_wait_connect : codes wait_connect.
Proof. unfold wait_connect, log_errno. cs. Qed.
Lemma codes_initialize : codes initializeSession.
Proof.
  unfold initializeSession, initializeSessionPOSIX, log_errno.
  cs; first [apply grows_nonblocking|apply grows_resolve|apply grows_connect|apply grows_wait_connect|apply codes_wait_connect|apply codes_blocking].
Qed.
Lemma greeting_prefix : forall d, exists y, cstr d = drop_last_byte d ++ y.
Proof.
  intros d. unfold drop_last_byte. generalize (length d - 1)%nat as n. induction d as [|c d IH]; intros n.
  - destruct n; exists []; reflexivity.
  - destruct n as [|n]; cbn [firstn cstr]; [eexists; reflexivity|]. destruct (Ascii.eqb c NUL); [exists []; reflexivity|].
    destruct (IH n) as [y E]. exists y. rewrite E. reflexivity.
Qed.
Lemma greeting_coded : forall s s1 r code s' t h, s_t s1 = s_t s ++ t -> reads_only t -> dialogue t = (h, []) ->
  (forall d, r = Some d -> h = cstr d) -> greeting_result r s1 = (Done code, s') -> coded code s s'.
Proof.
  intros s s1 r code s' t h T R D Hh H. destruct r as [d|]; cbn [greeting_result] in H; [|apply ret_done in H as [-> _]; right; right; left; doc].
  apply bind_done in H as ([] & s2 & H2 & H). apply bind_done in H as ([] & s3 & H3 & H). apply ret_done in H as [-> ->].
  assert (E2 : s_t s2 = s_t s1) by (unfold logs in H2; apply addLog_core in H2; tauto).
  assert (E3 : s_t s3 = s_t s2).
  { destruct (_ =? STATUS_CODE_SERVICE_READY) in H3; [unfold logc in H3; apply addLog_core in H3; tauto|apply ret_done in H3 as [_ ->]; reflexivity]. }
  eapply reply_coded; [rewrite E3, E2; exact T|exact R|exact D|].
  destruct (greeting_prefix d) as [y Y]. exists (drop_last_byte d), y. split; [rewrite (Hh d eq_refl); exact Y|reflexivity].
Qed.
Lemma codes_greetings_tls : codes checkServerGreetingsTLS.
Proof.
  intros s code s' H. unfold checkServerGreetingsTLS in H. apply bind_done in H as (r & s1 & H1 & H).
  apply wait_bio_trace in H1 as (t & h & T & R & D & X). eapply greeting_coded; eassumption.
Qed.
Lemma codes_greetings : codes checkServerGreetings.
Proof.
  intros s code s' H. unfold checkServerGreetings, bind at 1 2, getc, gete in H.
  destruct (wait_loop _ _ _ _) as [[o evs] rest] eqn:E.
  apply bind_done in H as (u2 & s2 & H2 & H). apply bind_done in H as (u3 & s3 & H3 & H).
  apply bind_done in H as (r & s4 & H4 & H). unfold lift in H4. inversion H4; subst o s4.
  inversion H2; subst. inversion H3; subst. 
  apply wait_loop_trace in E as [E1 E2]; [|left; eexists; reflexivity].
  destruct (dialogue_heard evs [] E1) as [_ X]. destruct (dialogue evs) as [h l] eqn:Dv. cbn in X. subst l.
  eapply (greeting_coded s _ r code s' evs h); [|exact E1|exact Dv| |exact H]; [reflexivity|]. intros d Ed. apply E2. f_equal. exact Ed.
Qed.
Lemma codes_ehlo_loop : forall fuel tmo o, In tmo defined_codes ->
  forall s r s', ehlo_loop fuel tmo o s = (Done r, s') -> r = 250 \/ coded r s s'.
Proof.
  induction fuel as [|f IH]; intros tmo o D s r s' H; cbn [ehlo_loop] in H; destruct (containsAllOptions o).
  - apply bind_done in H as (u & s1 & _ & H). apply ret_done in H as [-> _]. left. reflexivity.
  - discriminate H.
  - apply bind_done in H as (u & s1 & _ & H). apply ret_done in H as [-> _]. left. reflexivity.
  - apply bind_done in H as (code & s1 & H1 & H). assert (G := grows_reply s). rewrite H1 in G.
    destruct (code =? -1); [apply ret_done in H as [-> _]; right; right; right; left; exact D|].
    destruct (negb (code =? 250)).
    + apply ret_done in H as [-> ->]. right. apply reply_trace in H1 as (_ & t & h & T & R & Dt & [->|C]); [apply codes_minus_one|].
      eapply reply_coded; eassumption.
    + unfold bind, getc in H. destruct (c_resp (s_c s1)); [|discriminate H].
      apply IH in H; [|exact D]. destruct H as [H|H]; [left; exact H|right; eapply coded_after; eassumption].
Qed.
Lemma ehlo_coded : forall err tmo, err <> 0 -> In err defined_codes -> In tmo defined_codes ->
  forall s r s', ehlo_with err tmo s = (Done r, s') -> r = 250 \/ coded r s s'.
Proof.
  intros err tmo N E T s r s' H. unfold ehlo_with in H. apply bind_done in H as (u & s0 & H0 & H).
  assert (G0 := grows_logc EHLO s). rewrite H0 in G0. apply bind_done in H as (code & s1 & H1 & H).
  assert (G1 := grows_feedback EHLO err tmo s0). rewrite H1 in G1. cbn [snd] in *.
  destruct (negb (code =? 250)).
  - apply ret_done in H as [-> ->]. right. eapply coded_after; [exact G0|]. eapply codes_feedback; eassumption.
  - unfold bind, getc, gete in H. destruct (c_resp (s_c s1)); [|discriminate H].
    apply codes_ehlo_loop in H; [|exact T]. destruct H as [H|H]; [left; exact H|right].
    eapply coded_after; [exact (ext_trans _ _ _ G0 G1)|exact H].
Qed.
Lemma codes_identify : forall m k, (forall s r s', m s = (Done r, s') -> r = 250 \/ coded r s s') -> grows m -> codes k ->
  codes (bind m (fun a => if negb (a =? STATUS_CODE_REQUESTED_MAIL_ACTION_OK_OR_COMPLETED) then ret a else k)).
Proof.
  intros m k C G K s r s' H. apply bind_done in H as (a & s1 & H1 & H).
  destruct (Z.eqb_spec a STATUS_CODE_REQUESTED_MAIL_ACTION_OK_OR_COMPLETED) as [->|N]; cbn [negb] in H.
  - specialize (G s). rewrite H1 in G. eapply coded_after; [exact G|]. eapply K, H.
  - apply ret_done in H as [-> ->]. destruct (C _ _ _ H1) as [->|X]; [elim N; reflexivity|exact X].
Qed.
Lemma identify_coded : forall s r s', sendServerIdentification s = (Done r, s') -> r = 250 \/ coded r s s'.
Proof. apply ehlo_coded; [discriminate|doc|doc]. Qed.
Lemma identify_tls_coded : forall s r s', getServerSecureIdentification s = (Done r, s') -> r = 250 \/ coded r s s'.
Proof.
  intros s r s' H. unfold getServerSecureIdentification in H. apply bind_done in H as (u & s0 & H0 & H).
  match type of H0 with logc ?i s = _ => assert (G0 := grows_logc i s) end. rewrite H0 in G0.
  apply ehlo_coded in H; [|discriminate|doc|doc]. destruct H as [H|H]; [left; exact H|right; eapply coded_after; eassumption].
Qed.
Lemma codes_auth_client : codes authenticateClient.
Proof. unfold authenticateClient, authPlain, authLogin, authXOauth2. cs. Qed.
Lemma grows_auth_client : grows authenticateClient.
Proof. unfold authenticateClient, authPlain, authLogin, authXOauth2. gs. Qed.
Lemma codes_auth : codes authenticate_if_needed.
Proof. unfold authenticate_if_needed. cs; [apply codes_auth_client|apply grows_auth_client]. Qed.
Lemma codes_starttls : codes startTLSNegotiation.
Proof. unfold startTLSNegotiation, fresh_id. cs. Qed.
Lemma codes_upgrade : codes upgradeToSecureConnection.
Proof. unfold upgradeToSecureConnection. cs. Qed.
Ltac est :=
  repeat (apply codes_if; [first [apply codes_initialize|apply codes_greetings|apply codes_greetings_tls|apply codes_upgrade|apply codes_starttls]
                          |first [apply grows_initialize|apply grows_greetings|apply grows_greetings_tls|apply grows_upgrade|apply grows_starttls]|]);
  try (apply codes_identify; [first [apply identify_coded|apply identify_tls_coded]|first [apply grows_identify|apply grows_identify_tls]|]).
Lemma codes_establish : codes establish.
Proof.
  unfold establish. apply codes_bind; [apply grows_getc0|]. intros c. destruct (c_kind c).
  - unfold establishPlain. est. apply codes_auth.
  - unfold establishOpp. est. apply codes_bind; [apply grows_getc0|intros c0]. apply codes_bind; [apply grows_lift|intros tls].
    destruct tls; [|cs]. apply codes_log. est. apply codes_auth.
  - unfold establishForced. est. apply codes_auth.
Qed.

(** ** The mail transaction *)
Lemma mail_from_coded : forall fmts last s0 s r s', ext s0 s -> coded last s0 s ->
  mail_from_loop fmts last s = (Done r, s') -> coded r s0 s'.
Proof.
  induction fmts as [|f l IH]; intros last s0 s r s' E C H; cbn [mail_from_loop] in H.
  - apply ret_done in H as [-> ->]. exact C.
  - apply bind_done in H as (u & s1 & H1 & H). assert (G1 := grows_logc f s). rewrite H1 in G1.
    apply bind_done in H as (code & s2 & H2 & H).
    match type of H2 with sendFeedbackPtr ?d ?a ?b _ = _ => assert (G2 := grows_fb d a b s1); rewrite H2 in G2;
      assert (C2 : coded code s1 s2) by (eapply (codes_fb d a b); [discriminate|doc|doc|exact H2]) end.
    cbn [snd] in *. assert (E1 := ext_trans _ _ _ E G1). assert (C3 := coded_after _ _ _ _ E1 C2).
    assert (E2 := ext_trans _ _ _ E1 G2).
    destruct (code =? 250); [apply ret_done in H as [-> ->]; exact C3|].
    destruct (negb (code =? 501)); [apply ret_done in H as [-> ->]; exact C3|]. eapply IH; eassumption.
Qed.
Lemma codes_mail_from : forall fmts, codes (mail_from_loop fmts 0).
Proof. intros fmts s r s' H. eapply mail_from_coded; [apply ext_refl|left; reflexivity|exact H]. Qed.
Lemma grows_mail_from : forall fmts last, grows (mail_from_loop fmts last).
Proof. induction fmts; intros last; cbn [mail_from_loop]; gs. apply IHfmts. Qed.

Lemma written_one : forall d ev t, writes d ev -> written (ev :: t) = d :: written t.
Proof.
  intros d ev t [(fd & r & ->)|(b & r & ->)]; unfold written, exchanges; cbn [dialogue]; destruct (dialogue t) as [h l]; reflexivity.
Qed.
Lemma rcpt_trailing : forall a t, only_quit (written t) -> Forall trailing (cstr (rcpt_command a) :: written t).
Proof.
  intros a t Q. constructor.
  - right. eexists. reflexivity.
  - apply Forall_forall. intros d Hd. left. unfold only_quit in Q. rewrite Forall_forall in Q. symmetry. exact (Q d Hd).
Qed.
Lemma add_recipients_coded : forall l result s0 s r s', ext s0 s -> (result = 250 \/ coded result s0 s) ->
  addMailRecipients l result s = (Done r, s') -> (r = 250 \/ coded r s0 s').
Proof.
  induction l as [|a l IH]; intros result s0 s r s' E C H; cbn [addMailRecipients] in H.
  - apply ret_done in H as [-> ->]. exact C.
  - apply bind_done in H as ([] & s1 & H1 & H). assert (G1 := grows_logc (rcpt_command a) s). rewrite H1 in G1.
    apply logc_core in H1 as (_ & _ & T1 & _).
    apply bind_done in H as (code & s2 & H2 & H).
    match type of H2 with sendFeedbackPtr ?d ?x ?y _ = _ => assert (G2 := grows_fb d x y s1); rewrite H2 in G2;
      assert (C2 : coded code s1 s2) by (eapply (codes_fb d x y); [discriminate|doc|doc|exact H2]);
      destruct (once_fb d x y s1) as (ev & t & T2 & W & Q); rewrite H2 in T2 end.
    cbn [snd] in *. assert (E1 := ext_trans _ _ _ E G1).
    eapply (IH _ s0 s2 r s'); [exact (ext_trans _ _ _ E1 G2)| |exact H].
    destruct (code =? 250); [|right; eapply coded_after; eassumption].
    destruct C as [C|C]; [left; exact C|right].
    eapply (coded_before _ s0 s s2 (ev :: t)); [exact C|rewrite T2, T1; reflexivity|].
    rewrite (written_one _ _ _ W). apply rcpt_trailing, Q.
Qed.
Lemma grows_add_recipients : forall l r, grows (addMailRecipients l r).
Proof. induction l; intros r; cbn [addMailRecipients]; gs. apply IHl. Qed.
Lemma codes_recipients_loop : forall ls, codes (recipients_loop ls).
Proof.
  induction ls as [|[|l] ls IH]; cbn [recipients_loop]; [apply codes_ret; documented|exact IH|].
  apply codes_identify; [|apply grows_add_recipients|exact IH].
  intros s r s' H. eapply add_recipients_coded; [apply ext_refl|left; reflexivity|exact H].
Qed.
Lemma codes_recipients : forall m, codes (setMailRecipients m).
Proof.
  intros m. unfold setMailRecipients. apply codes_if; [apply codes_mail_from|apply grows_mail_from|apply codes_recipients_loop].
Qed.
Lemma codes_headers : forall m, codes (setMailHeaders m).
Proof. intros m. unfold setMailHeaders, addMailHeader. cs. Qed.
Lemma grows_chunks : forall l err, grows (send_chunks l err).
Proof. induction l; intros err; cbn [send_chunks]; gs. apply IHl. Qed.
Lemma codes_chunks : forall err, err <> 0 -> In err defined_codes -> forall l, codes (send_chunks l err).
Proof.
  intros err N D. induction l; cbn [send_chunks]; [apply codes_ret; documented|].
  apply codes_if; [apply codes_cmd; assumption|apply grows_cmd|exact IHl].
Qed.
Lemma codes_quit : codes sendQuitCommand.
Proof.
  unfold sendQuitCommand, sendQuit_with. change (sendCommandPtr_with cleanup) with sendCommandPtr. cs.
Qed.
Lemma grows_quit : grows sendQuitCommand.
Proof. unfold sendQuitCommand, sendQuit_with. change (sendCommandPtr_with cleanup) with sendCommandPtr. gs. Qed.
Lemma codes_body : forall m, codes (setMailBody m).
Proof.
  intros m. unfold setMailBody.
  apply codes_log. apply codes_bind; [apply grows_gete0|intros e]. apply codes_bind; [apply grows_lift|intros b].
  apply codes_if; [apply codes_chunks; [destruct (512 <? _)%nat; discriminate|destruct (512 <? _)%nat; doc]|apply grows_chunks|].
  cs; [apply codes_quit|apply grows_quit].
Qed.
Lemma codes_transaction : forall m, codes (mail_transaction m).
Proof.
  intros m. unfold mail_transaction.
  apply codes_if; [apply codes_recipients|apply grows_recipients|].
  apply codes_if; [apply codes_headers|apply grows_headers|].
  apply codes_if; [apply codes_body|apply grows_body|]. cs.
Qed.
Lemma grows_establish : grows establish.
Proof.
  unfold establish, establishPlain, establishOpp, establishForced.
  gs; first [apply grows_initialize|apply grows_greetings|apply grows_greetings_tls|apply grows_upgrade|apply grows_starttls
            |apply grows_identify|apply grows_identify_tls|apply grows_auth].
Qed.
Lemma codes_sendMail : forall m, codes (sendMail m).
Proof.
  intros m. unfold sendMail. apply codes_bind; [apply grows_getc0|intros c]. destruct (c_conn c).
  - apply codes_if; [apply codes_ret; documented|apply grows_ret|].
    apply codes_bind; [apply grows_updc|intros _; apply codes_transaction].
  - apply codes_if; [apply codes_establish|apply grows_establish|].
    apply codes_bind; [apply grows_updc|intros _; apply codes_transaction].
Qed.
