(** A timeout is reported only after a silence. *)

From Coq Require Import Ascii String List NArith ZArith Bool Lia ZifyBool ZifyNat ZifyN.
From Verif Require Import Base Lib ModelUtil ModelAddress ModelAttachment ModelMessage ModelReply ModelErrors ModelState ModelClient
  ModelWorld SpecAddress SpecReply SpecErrors SpecDialogue SpecConn SpecPatience
  ProofReply ProofSteps ProofWalk ProofDialogue ProofMail ProofMail4 ProofConn ProofCode ProofTime.
Import ListNotations.
Open Scope Z_scope.

Lemma silence_after : forall n a t, silence n t -> silence n (a ++ t).
Proof. intros n a t (x & b & c & -> & F & L). exists (a ++ x), b, c. rewrite <- app_assoc. auto. Qed.
Lemma silence_before : forall n t c, silence n t -> silence n (t ++ c).
Proof. intros n t c (x & b & y & -> & F & L). exists x, b, (y ++ c). rewrite <- !app_assoc. auto. Qed.
Lemma silence_all : forall n t, Forall calm t -> (n <= slept t)%N -> silence n t.
Proof. intros n t F L. exists [], t, []. rewrite app_nil_r. auto. Qed.
Lemma coded_reads_app : forall a b, coded_reads (a ++ b) -> coded_reads a /\ coded_reads b.
Proof. intros a b H. split; intros ev c d I; apply (H ev c d); apply in_or_app; auto. Qed.

Lemma digit_not_nul : forall c v, digit_value c v -> Ascii.eqb c NUL = false.
Proof.
  intros c v H. apply strtol_digit_value in H as (_ & _ & _ & _ & _ & N).
  destruct (Ascii.eqb_spec c NUL); [contradiction|reflexivity].
Qed.
Lemma code_cstr : forall c1 c2 c3 v1 v2 v3 r, digit_value c1 v1 -> digit_value c2 v2 -> digit_value c3 v3 ->
  cstr (c1 :: c2 :: c3 :: r) = c1 :: c2 :: c3 :: cstr r.
Proof.
  intros c1 c2 c3 v1 v2 v3 r D1 D2 D3. cbn [cstr].
  rewrite (digit_not_nul _ _ D1), (digit_not_nul _ _ D2), (digit_not_nul _ _ D3). reflexivity.
Qed.
Lemma code_positive : forall c1 c2 c3 v1 v2 v3 r, digit_value c1 v1 -> digit_value c2 v2 -> digit_value c3 v3 ->
  0 <= extractReturnCode (Some (c1 :: c2 :: c3 :: r)).
Proof.
  intros c1 c2 c3 v1 v2 v3 r D1 D2 D3. rewrite (extract_three_digits _ _ _ _ _ _ _ D1 D2 D3).
  destruct D1, D2, D3. lia.
Qed.
Lemma read_code : forall r c d, r = RData (c :: d) -> begins_with_code (c :: d) ->
  0 <= extractReturnCode (Some (drop_last_byte (rbytes r))).
Proof.
  intros r0 c d -> (c1 & c2 & c3 & c4 & v1 & v2 & v3 & r & E & D1 & D2 & D3). rewrite E. clear c d E.
  cbn [rbytes]. change SERVERRESPONSE_BUFFER_LENGTH with (S (S (S (S 1020)))). cbn [firstn].
  unfold drop_last_byte. cbn [length Nat.sub firstn].
  rewrite (code_cstr _ _ _ _ _ _ _ D1 D2 D3). eapply code_positive; eassumption.
Qed.

(** ** Waiting *)

Lemma wait_loop_calm : forall mk, one_read mk -> forall rs tmo wait o evs rest,
  wait_loop mk tmo wait rs = (o, evs, rest) ->
  (o = Done None -> exists b c, evs = b ++ c /\ Forall calm b /\ (tmo - wait <= slept b)%N) /\
  (forall d, o = Done (Some d) -> coded_reads evs -> 0 <= extractReturnCode (Some (drop_last_byte d))).
Proof.
  intros mk M rs. induction rs as [|r rs IH]; intros tmo wait o evs rest H; cbn [wait_loop] in H.
  { inversion H; subst. split; [discriminate|intros d X; discriminate X]. }
  destruct (rbytes r) as [|c0 d0] eqn:R.
  - assert (C : calm (mk r)).
    { destruct M as [[fd ->]|[i ->]]; destruct r as [[|c d]|e]; try exact Logic.I; discriminate R. }
    destruct (wait <? tmo)%N eqn:W.
    + destruct (wait_loop mk tmo (wait + 1) rs) as [[o' evs'] rest'] eqn:E. inversion H; subst.
      destruct (IH _ _ _ _ _ E) as [E1 E2]. split.
      * intros X. destruct (E1 X) as (b & c & -> & F & L). exists (mk r :: EvSleep 1 :: b), c. split; [reflexivity|].
        split; [constructor; [exact C|constructor; [exact Logic.I|exact F]]|].
        rewrite (mk_slept mk r M). cbn [slept fold_right]. fold (slept b). lia.
      * intros d X G. apply (E2 d X). intros ev c x I. apply (G ev c x). right. right. exact I.
    + inversion H; subst. split; [|intros d X; discriminate X]. intros _. exists [], [mk r]. repeat split; [constructor|cbn; lia].
  - inversion H; subst. split.
    + intros X. destruct (wait <? tmo)%N eqn:W; [discriminate X|]. exists [], [mk r]. repeat split; [constructor|cbn; lia].
    + intros d X G. destruct (wait <? tmo)%N; [|discriminate X].
      assert (Ed : d = rbytes r) by (rewrite R; congruence). subst d.
      destruct r as [[|c x]|e]; try discriminate R. eapply read_code; [reflexivity|].
      apply (G (mk (RData (c :: x)))); [left; reflexivity|]. destruct M as [[fd ->]|[i ->]]; eauto.
Qed.

Lemma heard_code : forall t, coded_reads t -> (exists ev, In ev t /\ delivers ev) -> reads_only t ->
  0 <= extractReturnCode (Some (heard t)).
Proof.
  unfold heard. induction t as [|ev t IH]; intros G (e & I & D) R; [destruct I|].
  assert (Gt : coded_reads t) by (intros x c d Ix; apply (G x c d); right; exact Ix).
  assert (Rt : reads_only t) by (intros x Ix; apply R; right; exact Ix).
  assert (Q : delivers ev \/ (~ delivers ev /\ exists e, In e t /\ delivers e)).
  { destruct ev; try (right; split; [intros []|]; destruct I as [<-|I]; [destruct D|eauto]);
      (destruct r as [[|c d]|er]; [right|left; exact Logic.I|right]; (split; [intros []|]; destruct I as [<-|I]; [destruct D|eauto])). }
  destruct Q as [Q|[Q1 Q2]].
  - destruct ev; try destruct Q; destruct r as [[|c d]|er]; try destruct Q;
      (assert (X : begins_with_code (c :: d)) by (eapply G; [left; reflexivity|eauto]));
      destruct X as (c1 & c2 & c3 & c4 & v1 & v2 & v3 & r & -> & D1 & D2 & D3);
      cbn [dialogue]; destruct (dialogue t) as [h l]; cbn [fst];
      change 1024%nat with (S (S (S 1021))); cbn [firstn]; change (S (S (S 1021))) with 1024%nat;
      rewrite (code_cstr _ _ _ _ _ _ _ D1 D2 D3); cbn [app]; eapply code_positive; eassumption.
  - specialize (IH Gt Q2 Rt). assert (R1 := R ev (or_introl eq_refl)).
    destruct ev; cbn [dialogue]; try exact IH; try destruct R1;
      (destruct r as [[|c d]|er]; [|elim Q1; exact Logic.I|exact IH]); destruct (dialogue t) as [h l]; exact IH.
Qed.

Section Patience.
Variable T : N.

(** A reply: a code, or nothing after a silence. *)
Definition answers (m : M Z) : Prop := forall s r s' t, c_timeout (s_c s) = T -> m s = (Done r, s') ->
  s_t s' = s_t s ++ t -> coded_reads t -> 0 <= r \/ (r = -1 /\ silence T t).

Lemma answers_raw : answers getRawCommandReply.
Proof.
  intros s r s' t E H Tt G. assert (H' := H). apply raw_reply_time in H as (t1 & T1 & _ & N & Y).
  apply raw_reply_trace in H' as (_ & t2 & h & T2 & RO & _).
  rewrite Tt in T1, T2. apply app_inv_head in T1, T2. subst t1 t2.
  destruct (N.lt_ge_cases (activity t) 1) as [A|A].
  - right. destruct (N r eq_refl (activity_none T t A)) as [-> S]. split; [reflexivity|].
    apply silence_all; [|rewrite S, E; lia]. apply Forall_forall. intros ev I.
    assert (D := activity_none T t A ev I). specialize (RO ev I). destruct ev; try exact Logic.I; try destruct RO;
      (destruct r as [[|c d]|er]; [exact Logic.I|elim D; exact Logic.I|exact Logic.I]).
  - left. assert (X : exists ev, In ev t /\ delivers ev).
    { unfold activity in A. destruct (filter active t) as [|ev l] eqn:F; [cbn in A; lia|].
      assert (I : In ev (filter active t)) by (rewrite F; left; reflexivity). apply filter_In in I as [I B].
      exists ev. split; [exact I|]. specialize (RO ev I). destruct ev; try discriminate B; try destruct RO;
        (destruct r0 as [[|c d]|er]; try discriminate B; exact Logic.I). }
    destruct (Y r eq_refl X) as [-> _]. apply heard_code; assumption.
Qed.

Lemma wait_bio_calm : forall s o s' t, c_timeout (s_c s) = T -> wait_bio s = (Done o, s') -> s_t s' = s_t s ++ t -> coded_reads t ->
  match o with None => silence T t | Some d => 0 <= extractReturnCode (Some (drop_last_byte d)) end.
Proof.
  intros s o s' t E H Tt G. unfold wait_bio, bind at 1, getc in H. destruct (c_bio (s_c s)) as [b|].
  - unfold bind at 1, gete in H. destruct (wait_loop _ _ _ _) as [[o1 evs] rest] eqn:W.
    unfold bind, upde, emits, lift in H. cbn [s_c s_e s_t] in H. apply pair_equal_spec in H as [-> <-].
    cbn [s_t] in Tt. apply app_inv_head in Tt. subst evs.
    apply wait_loop_calm in W as [W1 W2]; [|right; eexists; reflexivity].
    destruct o as [d|]; [exact (W2 d eq_refl G)|]. destruct (W1 eq_refl) as (x & y & -> & F & L).
    exists [], x, y. split; [reflexivity|]. split; [exact F|]. rewrite <- E. lia.
  - unfold wait_null_bio, bind, getc in H. destruct (0 <? c_timeout (s_c s))%N eqn:Z; unfold emit, ret in H; apply pair_equal_spec in H as [H <-]; injection H as <-; cbn [s_t] in Tt.
    + apply app_inv_head in Tt. subst t. apply silence_all; [repeat constructor|cbn; lia].
    + exists [], [], t. split; [reflexivity|]. split; [constructor|cbn; lia].
Qed.
Lemma log_trace : forall i p s o s', addLog i p s = (o, s') -> s_t s' = s_t s.
Proof.
  intros i p s o s' H. unfold addLog, bind, getc in H. destruct (c_log (s_c s)); [|inversion H; reflexivity]. cbv zeta in H.
  repeat match type of H with (if ?b then _ else _) _ = _ => destruct b end; inversion H; reflexivity.
Qed.
Lemma answers_tls : answers getServerReplyTLS.
Proof.
  intros s r s' t E H Tt G. unfold getServerReplyTLS in H. apply bind_done in H as (o & s1 & H1 & H).
  assert (X : s_t s' = s_t s1 /\ r = match o with None => -1 | Some d => extractReturnCode (Some (drop_last_byte d)) end).
  { destruct o as [d|]; [|apply ret_done in H as [-> ->]; auto].
    apply bind_done in H as (u & s2 & H2 & H). apply bind_done in H as (u2 & s3 & H3 & H). apply ret_done in H as [-> ->].
    apply log_trace in H3. inversion H2; subst. auto. }
  destruct X as [X ->]. rewrite X in Tt. assert (W := wait_bio_calm _ _ _ _ E H1 Tt G). destruct o; auto.
Qed.
Lemma answers_reply : answers getServerReply.
Proof.
  intros s r s' t E H. unfold getServerReply, bind, getc in H. destruct (c_kind (s_c s)); [eapply answers_raw|eapply answers_tls|eapply answers_tls]; eassumption.
Qed.

(** A computation whose timeout codes come after a silence. *)
Definition late (m : M Z) : Prop := forall s r s' t, c_timeout (s_c s) = T -> m s = (Done r, s') ->
  s_t s' = s_t s ++ t -> coded_reads t -> In r timeout_codes -> silence T t.

Lemma late_ret : forall r, ~ In r timeout_codes -> late (ret r).
Proof. intros r N s x s' t E H Tt G I. apply ret_done in H as [-> _]. contradiction. Qed.
Lemma late_none : forall (m : M Z), (forall s r s', m s <> (Done r, s')) -> late m.
Proof. intros m H s r s' t E X. elim (H _ _ _ X). Qed.
Lemma timed_split : forall {A} n (m : M A) s a s1 s' t, timed T n m -> c_timeout (s_c s) = T -> m s = (a, s1) ->
  s_t s' = s_t s ++ t -> ext s1 s' -> c_timeout (s_c s1) = T /\ exists t1 t2, s_t s1 = s_t s ++ t1 /\ s_t s' = s_t s1 ++ t2 /\ t = t1 ++ t2.
Proof.
  intros A n m s a s1 s' t Hm E H Tt (t2 & X). destruct (Hm s E) as (E1 & t1 & T1 & _). rewrite H in *. cbn [snd] in *.
  split; [exact E1|]. exists t1, t2. split; [exact T1|]. split; [exact X|].
  rewrite X, T1, <- app_assoc in Tt. apply app_inv_head in Tt. symmetry. exact Tt.
Qed.
Lemma late_bind : forall {A} n (m : M A) k, timed T n m -> (forall a, late (k a)) -> (forall a, grows (k a)) -> late (bind m k).
Proof.
  intros A n m k Hm Hk Gk s r s' t E H Tt G I. apply bind_done in H as (a & s1 & H1 & H).
  assert (X := Gk a s1). rewrite H in X. cbn [snd] in X.
  destruct (timed_split n m s _ s1 s' t Hm E H1 Tt X) as (E1 & t1 & t2 & T1 & T2 & ->).
  apply coded_reads_app in G as [G1 G2]. apply silence_after. eapply Hk; eassumption.
Qed.
Lemma late_if : forall n m c k, late m -> timed T n m -> late k -> grows k -> late (bind m (fun a => if negb (a =? c) then ret a else k)).
Proof.
  intros n m c k Lm Hm Hk Gk s r s' t E H Tt G I. apply bind_done in H as (a & s1 & H1 & H).
  destruct (negb (a =? c)); [apply ret_done in H as [-> ->]; eapply Lm; eassumption|].
  assert (X := Gk s1). rewrite H in X. cbn [snd] in X.
  destruct (timed_split n m s _ s1 s' t Hm E H1 Tt X) as (E1 & t1 & t2 & T1 & T2 & ->).
  apply coded_reads_app in G as [G1 G2]. apply silence_after. eapply Hk; eassumption.
Qed.

(** A command and its reply. *)
Lemma positive_not_timeout : forall r, 0 <= r -> ~ In r timeout_codes.
Proof. intros r H I. cbn in I. lia. Qed.
Lemma late_awaited : forall reply tmo, answers reply -> timed T 1 reply ->
  late (code <- reply;; if negb (code =? -1) then ret code else cleanup;; ret tmo).
Proof.
  intros reply tmo R Tr s r s' t E H Tt G I. apply bind_done in H as (a & s1 & H1 & H).
  assert (X : ext s1 s').
  { destruct (negb _); [apply ret_done in H as [_ ->]; apply ext_refl|].
    apply bind_done in H as (u & s2 & H2 & H). apply ret_done in H as [_ ->]. assert (Y := grows_cleanup s1). rewrite H2 in Y. exact Y. }
  destruct (timed_split 1 reply s _ s1 s' t Tr E H1 Tt X) as (E1 & t1 & t2 & T1 & T2 & ->).
  apply coded_reads_app in G as [G1 G2]. destruct (R s a s1 t1 E H1 T1 G1) as [P|[-> S]].
  - replace (a =? -1) with false in H by lia. apply ret_done in H as [-> ->]. elim (positive_not_timeout a P I).
  - apply silence_before. exact S.
Qed.
Lemma timed_replies : forall m, replies T m -> timed T 1 m.
Proof.
  intros m R s E. destruct (R s E) as (E1 & t & T1 & S & _). split; [exact E1|]. exists t. split; [exact T1|].
  eapply N.le_trans; [exact S|]. rewrite N.mul_add_distr_l. lia.
Qed.
Ltac notin := cbv; intuition discriminate.

Lemma late_raw3 : forall d err tmo, ~ In err timeout_codes -> late (sendRaw3 d err tmo).
Proof.
  intros d err tmo N. unfold sendRaw3. eapply (late_bind 0).
  - apply timed_raw2_with, timed_cleanup.
  - intros r. destruct (negb (r =? 0)); [apply late_ret, N|].
    apply late_awaited; [apply answers_raw|apply timed_replies, replies_raw].
  - intros r. gs.
Qed.
Lemma late_written : forall (w : M send_res) reply err tmo, timed T 0 w -> answers reply -> timed T 1 reply -> grows reply ->
  ~ In err timeout_codes ->
  late (r <- w;; match r with
                 | WErr er => setLastSocketErrNo er;; cleanup;; ret err
                 | WSigpipe => killed
                 | _ => code <- reply;; if negb (code =? -1) then ret code else cleanup;; ret tmo
                 end).
Proof.
  intros w reply err tmo W R Tr Gr N. eapply (late_bind 0); [exact W| |].
  - intros r. destruct r; try (apply late_awaited; assumption).
    + eapply (late_bind 0); [apply timed_still; intros ?; split; reflexivity| |intros ?; gs].
      intros _. eapply (late_bind 0); [apply timed_cleanup|intros _; apply late_ret, N|intros ?; gs].
    + apply late_none. discriminate.
  - intros r. destruct r; gs; exact Gr.
Qed.
Lemma late_feedback : forall d err tmo, ~ In err timeout_codes -> late (sendFeedback d err tmo).
Proof.
  intros d err tmo N. unfold sendFeedback. eapply (late_bind 0); [apply timed_still; intros ?; split; reflexivity| |].
  - intros c. assert (X : late (sendFeedbackTLS d err tmo)).
    { unfold sendFeedbackTLS. eapply (late_bind 0); [apply timed_still; intros ?; split; reflexivity| |].
      - intros c1. destruct (c_bio c1); [|apply late_raw3, N].
        apply late_written; [apply timed_puts|apply answers_reply|apply timed_replies, replies_reply|apply grows_reply|exact N].
      - intros c1. destruct (c_bio c1); [gs; apply grows_puts|apply grows_raw3]. }
    destruct (c_kind c); [apply late_raw3, N|exact X|exact X].
  - intros c. destruct (c_kind c); unfold sendFeedbackTLS; gs; try apply grows_raw3; apply grows_puts.
Qed.
Lemma late_fb : forall d err tmo, ~ In err timeout_codes -> late (sendFeedbackPtr d err tmo).
Proof.
  intros d err tmo N. unfold sendFeedbackPtr. eapply (late_bind 0); [apply timed_still; intros ?; split; reflexivity| |].
  - intros c. destruct (c_rawptr c); [apply late_raw3, N|apply late_feedback, N].
  - intros c. destruct (c_rawptr c); [apply grows_raw3|apply grows_feedback].
Qed.
Lemma late_cmd : forall d err, err <> 0 -> ~ In err timeout_codes -> late (sendCommandPtr d err).
Proof.
  intros d err N0 N s r s' t E H Tt G I. destruct (cmd_done _ _ _ _ _ H N0) as [(-> & _)|(-> & _)]; [|contradiction].
  revert I. notin.
Qed.

Ltac tm := first [apply timed_addLog|apply timed_cleanup|apply timed_cmd|apply timed_fb; discriminate|apply timed_auth|apply timed_identify|apply timed_identify_tls
  |apply timed_starttls|apply timed_upgrade|apply timed_greetings|apply timed_greetings_tls|apply timed_initialize|apply timed_recipients
  |apply timed_headers|apply timed_body|apply timed_chunks|apply timed_mail_from|apply timed_add|apply timed_nonblocking|apply timed_quit
  |apply timed_still; intros ?; split; reflexivity].
Ltac gm := intros; gs; first [apply grows_raw3|apply grows_feedback|apply grows_ehlo|apply grows_ehlo_loop|apply grows_auth|apply grows_auth_client
  |apply grows_starttls|apply grows_greetings|apply grows_greetings_tls|apply grows_identify|apply grows_identify_tls|apply grows_upgrade
  |apply grows_chunks|apply grows_quit|apply grows_add_recipients|apply grows_mail_from|idtac].

Lemma late_ehlo_loop : forall fuel tmo o, late (ehlo_loop fuel tmo o).
Proof.
  induction fuel as [|f IH]; intros tmo o s r s' t E H Tt G I; cbn [ehlo_loop] in H; destruct (containsAllOptions o);
    try (apply bind_done in H as (u & s1 & _ & H); apply ret_done in H as [-> _]; revert I; notin); [discriminate H|].
  apply bind_done in H as (a & s1 & H1 & H).
  assert (X : ext s1 s').
  { destruct (a =? -1); [apply ret_done in H as [_ ->]; apply ext_refl|].
    destruct (negb (a =? 250)); [apply ret_done in H as [_ ->]; apply ext_refl|].
    unfold bind, getc in H. destruct (c_resp (s_c s1)) as [x|]; [|discriminate H].
    assert (Y := grows_ehlo_loop f tmo (o ++ [LF] ++ x) s1). rewrite H in Y. exact Y. }
  destruct (timed_split 1 getServerReply s _ s1 s' t (timed_replies _ (replies_reply T)) E H1 Tt X) as (E1 & t1 & t2 & T1 & T2 & ->).
  apply coded_reads_app in G as [G1 G2]. destruct (answers_reply s a s1 t1 E H1 T1 G1) as [P|[-> S]].
  - replace (a =? -1) with false in H by lia.
    destruct (negb (a =? 250)); [apply ret_done in H as [-> ->]; elim (positive_not_timeout a P I)|].
    unfold bind, getc in H. destruct (c_resp (s_c s1)) as [x|]; [|discriminate H].
    apply silence_after. eapply IH; eassumption.
  - apply silence_before. exact S.
Qed.
Lemma late_ehlo : forall err tmo, err <> 0 -> err <> 250 -> tmo <> 250 -> ~ In err timeout_codes -> late (ehlo_with err tmo).
Proof.
  intros err tmo N0 N1 N2 N. unfold ehlo_with. eapply (late_bind 0); [apply timed_addLog| |].
  - intros _. eapply (late_if 0); [apply late_feedback, N|apply paid_timed, paid_feedback; assumption| |].
    + eapply (late_bind 0); [apply timed_still; intros ?; split; reflexivity| |].
      * intros c. destruct (c_resp c); [|apply late_none; discriminate].
        eapply (late_bind 0); [apply timed_still; intros ?; split; reflexivity|intros e; apply late_ehlo_loop|intros; apply grows_ehlo_loop].
      * gm.
    + gm.
  - intros _. gs; [apply grows_feedback|apply grows_ehlo_loop].
Qed.
Lemma late_greeting_result : forall s0 s o r s' t, s_t s = s_t s0 ++ t ->
  match o with None => silence T t | Some d => 0 <= extractReturnCode (Some (drop_last_byte d)) end ->
  greeting_result o s = (Done r, s') -> s_t s' = s_t s /\ (In r timeout_codes -> silence T t).
Proof.
  intros s0 s o r s' t Tt P H. destruct o as [d|]; cbn [greeting_result] in H.
  - apply bind_done in H as (u & s1 & H1 & H). apply bind_done in H as (u2 & s2 & H2 & H). apply ret_done in H as [-> ->].
    apply log_trace in H1. assert (X : s_t s2 = s_t s1).
    { destruct (_ =? _) in H2; [apply log_trace in H2; exact H2|apply ret_done in H2 as [_ ->]; reflexivity]. }
    split; [congruence|]. intros I. elim (positive_not_timeout _ P I).
  - apply ret_done in H as [-> ->]. auto.
Qed.
Lemma late_greetings : late checkServerGreetings.
Proof.
  intros s r s' t E H Tt G I. unfold checkServerGreetings, bind at 1 2, getc, gete in H.
  destruct (wait_loop _ _ _ _) as [[o evs] rest] eqn:W. unfold bind at 1 2, upde, emits in H. cbn [s_c s_e s_t] in H.
  apply bind_done in H as (x & s1 & H1 & H). unfold lift in H1. apply pair_equal_spec in H1 as [-> <-].
  apply wait_loop_calm in W as [W1 W2]; [|left; eexists; reflexivity].
  assert (P : s_t s' = s_t s ++ evs).
  { destruct x as [d|]; cbn [greeting_result] in H.
    - apply bind_done in H as (u & s1 & H1 & H). apply bind_done in H as (u2 & s2 & H2 & H). apply ret_done in H as [_ ->].
      apply log_trace in H1. assert (X : s_t s2 = s_t s1).
      { destruct (_ =? _) in H2; [apply log_trace in H2; exact H2|apply ret_done in H2 as [_ ->]; reflexivity]. }
      rewrite X, H1. reflexivity.
    - apply ret_done in H as [_ ->]. reflexivity. }
  rewrite P in Tt. apply app_inv_head in Tt. subst evs.
  eapply (late_greeting_result s {| s_c := s_c s; s_e := set_recv rest (s_e s); s_t := s_t s ++ t |} x r s' t); [reflexivity| |exact H|exact I].
  destruct x as [d|]; [exact (W2 d eq_refl G)|]. destruct (W1 eq_refl) as (a & b & -> & F & L).
  exists [], a, b. split; [reflexivity|]. split; [exact F|]. rewrite <- E. lia.
Qed.
Lemma late_greetings_tls : late checkServerGreetingsTLS.
Proof.
  intros s r s' t E H Tt G I. unfold checkServerGreetingsTLS in H. apply bind_done in H as (o & s1 & H1 & H).
  assert (X := grows_greeting_result o s1). rewrite H in X. cbn [snd] in X.
  destruct (timed_split 1 wait_bio s _ s1 s' t (timed_wait_bio T) E H1 Tt X) as (E1 & t1 & t2 & T1 & T2 & ->).
  apply coded_reads_app in G as [G1 G2]. apply silence_before.
  assert (P := wait_bio_calm _ _ _ _ E H1 T1 G1). eapply (late_greeting_result s s1 o r s' t1); eassumption.
Qed.
End Patience.
Arguments late_ret {T}. Arguments late_none {T}. Arguments late_bind {T A}. Arguments late_if {T}. Arguments late_fb {T}.
Arguments late_cmd {T}. Arguments late_raw3 {T}. Arguments late_ehlo {T}. Arguments timed_split {T A}.
