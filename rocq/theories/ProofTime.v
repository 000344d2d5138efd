(** The time spent waiting during a sending operation. *)

From Coq Require Import Ascii String List NArith ZArith Bool Lia ZifyBool ZifyNat ZifyN.
From Verif Require Import Base Lib ModelUtil ModelAddress ModelAttachment ModelMessage ModelReply ModelErrors ModelState ModelClient
  SpecAddress SpecReply SpecErrors SpecDialogue SpecConn
  ProofReply ProofSteps ProofWalk ProofDialogue ProofMail ProofMail4 ProofConn ProofCode.
Import ListNotations.
Open Scope N_scope.

Section Time.
Variable T : N.
Let L := N.max 1 T.

Definition timed {A} (n : N) (m : M A) : Prop := forall s, c_timeout (s_c s) = T ->
  c_timeout (s_c (snd (m s))) = T /\ exists t, s_t (snd (m s)) = s_t s ++ t /\ slept t <= L * (activity t + n).

Lemma activity_app : forall a b, activity (a ++ b) = activity a + activity b.
Proof. intros a b. unfold activity. rewrite filter_app, app_length. lia. Qed.
Lemma timed_bind : forall {A C} n p (m : M A) (k : A -> M C), timed n m -> (forall a, timed p (k a)) -> timed (n + p) (bind m k).
Proof.
  intros A C n p m k H1 H2 s E. unfold bind. specialize (H1 s E) as (E1 & t & T1 & S1). destruct (m s) as [o s1]. cbn [snd] in *.
  assert (W : L * (activity t + n) <= L * (activity t + (n + p))) by (apply N.mul_le_mono_l; lia).
  destruct o; try (split; [exact E1|]; exists t; split; [exact T1|lia]).
  destruct (H2 a s1 E1) as (E2 & t2 & T2 & S2). split; [exact E2|]. exists (t ++ t2). split; [rewrite T2, T1, app_assoc; reflexivity|].
  rewrite slept_app, activity_app. replace (activity t + activity t2 + (n + p)) with ((activity t + n) + (activity t2 + p)) by lia.
  rewrite N.mul_add_distr_l. lia.
Qed.
Lemma timed_bind0 : forall {A C} (m : M A) (k : A -> M C), timed 0 m -> (forall a, timed 0 (k a)) -> timed 0 (bind m k).
Proof. intros. apply (timed_bind 0 0); assumption. Qed.
Lemma timed_bind1 : forall {A C} (m : M A) (k : A -> M C), timed 0 m -> (forall a, timed 1 (k a)) -> timed 1 (bind m k).
Proof. intros. apply (timed_bind 0 1); assumption. Qed.
Lemma timed_still : forall {A} (m : M A), (forall s, c_timeout (s_c (snd (m s))) = c_timeout (s_c s) /\ s_t (snd (m s)) = s_t s) -> timed 0 m.
Proof.
  intros A m H s E. destruct (H s) as [H1 H2]. split; [congruence|]. exists []. split; [rewrite app_nil_r; exact H2|]. cbn. lia.
Qed.
Lemma timed_emit : forall ev, slept [ev] = 0 -> timed 0 (emit ev).
Proof. intros ev H s E. split; [exact E|]. exists [ev]. split; [reflexivity|]. rewrite H. lia. Qed.
Lemma timed_weak : forall {A} (m : M A), timed 0 m -> timed 1 m.
Proof.
  intros A m H s E. destruct (H s E) as (E1 & t & T1 & S). split; [exact E1|]. exists t. split; [exact T1|].
  rewrite N.mul_add_distr_l in *. lia.
Qed.
Lemma idle_timed : forall {A} (m : M A), idles m -> timed 0 m.
Proof.
  intros A m H s E. destruct (H s) as (E1 & t & T1 & F). split; [congruence|]. exists t. split; [exact T1|].
  destruct (slept_idle _ F) as (Z & _). rewrite Z. lia.
Qed.
Lemma timed_addLog : forall i p, timed 0 (addLog i p).
Proof. intros. apply idle_timed, idles_addLog. Qed.

Ltac t1 :=
  lazymatch goal with
  | |- timed 0 (ret _) => apply timed_still; intros ?; split; reflexivity
  | |- timed 0 (fail_ub _) => apply timed_still; intros ?; split; reflexivity
  | |- timed 0 blocked => apply timed_still; intros ?; split; reflexivity
  | |- timed 0 diverge => apply timed_still; intros ?; split; reflexivity
  | |- timed 0 killed => apply timed_still; intros ?; split; reflexivity
  | |- timed 0 getc => apply timed_still; intros ?; split; reflexivity
  | |- timed 0 gete => apply timed_still; intros ?; split; reflexivity
  | |- timed 0 (lift _) => apply timed_still; intros ?; split; reflexivity
  | |- timed 0 (updc _) => apply timed_still; intros ?; split; reflexivity
  | |- timed 0 (upde _) => apply timed_still; intros ?; split; reflexivity
  | |- timed 0 (setLastSocketErrNo _) => apply timed_still; intros ?; split; reflexivity
  | |- timed 0 (setLastServerResponse _) => apply timed_still; intros ?; split; reflexivity
  | |- timed 0 (emit _) => apply timed_emit; reflexivity
  | |- timed 0 (logc _) => apply timed_addLog
  | |- timed 0 (logs _) => apply timed_addLog
  | |- timed 0 (addLog _ _) => apply timed_addLog
  | |- timed 0 (bind _ _) => apply timed_bind0; [|intros ?]
  | |- timed 0 (if ?b then _ else _) => destruct b
  | |- timed 0 (match ?x with _ => _ end) => destruct x
  end.
Ltac ts := repeat (t1; cbv zeta).

Lemma timed_send : forall d, timed 0 (sys_send d).
Proof. intros. unfold sys_send. ts. Qed.
Lemma timed_puts : forall b d, timed 0 (sys_puts b d).
Proof. intros. unfold sys_puts. ts. Qed.
Lemma timed_raw2_with : forall c d e, timed 0 c -> timed 0 (sendRaw2_with c d e).
Proof. intros c d e H. unfold sendRaw2_with. ts; try exact H. apply timed_send. Qed.
Lemma timed_cmd_with : forall c d e, timed 0 c -> timed 0 (sendCommandPtr_with c d e).
Proof.
  intros c d e H. unfold sendCommandPtr_with, sendCommandTLS_with. ts; try exact H; try (apply timed_raw2_with; exact H). all: apply timed_puts.
Qed.
Lemma timed_cleanup_f : forall f, timed 0 (cleanup_f f).
Proof.
  induction f as [|f IH]; cbn [cleanup_f]; [ts|]. unfold sendQuit_with, free_tls, close_socket. ts. all: apply timed_cmd_with; exact IH.
Qed.
Lemma timed_cleanup : timed 0 cleanup.
Proof. intros s. apply (timed_cleanup_f (cleanup_fuel (s_e s)) s). Qed.
Lemma timed_cmd : forall d e, timed 0 (sendCommandPtr d e).
Proof. intros. apply timed_cmd_with, timed_cleanup. Qed.
Lemma timed_quit : timed 0 sendQuitCommand.
Proof. unfold sendQuitCommand, sendQuit_with. ts. apply timed_cmd. Qed.

(** A reply: at most [L], and free of charge only if something came. *)
Definition replies (m : M Z) : Prop := forall s, c_timeout (s_c s) = T ->
  c_timeout (s_c (snd (m s))) = T /\ exists t, s_t (snd (m s)) = s_t s ++ t /\ slept t <= L /\
    (forall r, fst (m s) = Done r -> r <> (-1)%Z -> 1 <= activity t).
Lemma activity_none : forall t, activity t < 1 -> forall ev, In ev t -> ~ delivers ev.
Proof.
  induction t as [|e t IH]; intros H ev I D; [exact I|]. unfold activity in H. cbn [filter] in H.
  destruct (active e) eqn:A; [cbn [length] in H; lia|]. destruct I as [<-|I]; [|exact (IH H ev I D)].
  destruct e; try destruct D; destruct r as [[|c d]|x]; try destruct D; discriminate A.
Qed.
Lemma raw_reply_timeout : forall s, c_timeout (s_c (snd (getRawCommandReply s))) = c_timeout (s_c s).
Proof.
  intros s. unfold getRawCommandReply. unfold bind at 1. destruct (idles_nonblocking s) as [E1 _].
  destruct (setSocketToNonBlocking s) as [[] s1]; try exact E1. cbn [snd] in E1. unfold bind at 1 2, getc, gete.
  destruct (raw_loop _ _ _ _ _ _) as [[o evs] rest]. unfold bind at 1 2 3, upde, emits, lift. cbn [s_c s_e s_t].
  destruct o as [[[w g] full]| | | | |]; try exact E1.
  match goal with |- context [bind setSocketToBlocking _ ?x] => unfold bind at 1; destruct (idles_blocking x) as [E3 _]; destruct (setSocketToBlocking x) as [[] s3] end;
    cbn [snd s_c] in E3; try (cbn [snd]; congruence).
  destruct (_ || g)%bool; [|cbn; congruence].
  unfold bind at 1, setLastServerResponse, updc. unfold bind, logs.
  match goal with |- context [addLog ?i ?p ?x] => destruct (idles_addLog i p x) as [E4 _]; destruct (addLog i p x) as [[] s4] end; cbn [snd s_c ret] in *; rewrite E4; cbn; congruence.
Qed.
Lemma replies_raw : replies getRawCommandReply.
Proof.
  intros s E. split; [rewrite raw_reply_timeout; exact E|]. destruct (getRawCommandReply s) as [o s'] eqn:H.
  apply raw_reply_time in H as (t & T1 & S & N & _). rewrite E in *. exists t. split; [exact T1|]. split; [exact S|].
  cbn [fst]. intros r Hr Nr. destruct (N.lt_ge_cases (activity t) 1) as [Z|Z]; [|exact Z].
  elim Nr. apply (N r Hr). apply activity_none, Z.
Qed.
Lemma wait_bio_timeout : forall s, c_timeout (s_c (snd (wait_bio s))) = c_timeout (s_c s).
Proof.
  intros s. unfold wait_bio, bind at 1, getc. destruct (c_bio (s_c s)).
  - unfold bind at 1, gete. destruct (wait_loop _ _ _ _) as [[o evs] rest]. reflexivity.
  - unfold wait_null_bio, bind, getc. destruct (0 <? c_timeout (s_c s)); reflexivity.
Qed.
Lemma active_some : forall t, (exists ev, In ev t /\ delivers ev) -> 1 <= activity t.
Proof.
  intros t (ev & I & D). destruct (N.lt_ge_cases (activity t) 1) as [Z|Z]; [|exact Z]. exfalso. exact (activity_none t Z ev I D).
Qed.
Lemma replies_tls : replies getServerReplyTLS.
Proof.
  intros s E. destruct (getServerReplyTLS s) as [o s'] eqn:H. cbn [fst snd]. unfold getServerReplyTLS, bind at 1 in H.
  assert (W := wait_bio_timeout s).
  destruct (wait_bio s) as [o1 s1] eqn:H1. apply wait_bio_time in H1 as (t & T1 & S & _ & D & _). rewrite E in *. cbn [snd] in W.
  destruct o1 as [[d|]| | | | |];
    try (apply pair_equal_spec in H as [<- <-]; split; [exact W|]; exists t; split; [exact T1|]; split; [unfold L; lia|]; discriminate).
  - destruct (D d eq_refl) as [_ A]. apply active_some in A. unfold bind at 1, setLastServerResponse, updc in H.
    unfold bind, logs in H. match type of H with context [addLog ?i ?p ?x] => destruct (idles_addLog i p x) as (E4 & t4 & T4 & F4); destruct (addLog i p x) as [o4 s4] end.
    cbn [snd s_c s_t] in *. destruct (slept_idle _ F4) as (Z4 & _).
    assert (s' = s4) by (destruct o4; apply pair_equal_spec in H as [_ <-]; reflexivity). subst s'.
    split; [rewrite E4; exact W|]. exists (t ++ t4). rewrite T4, T1, app_assoc. split; [reflexivity|].
    rewrite slept_app, activity_app, Z4. unfold L. split; [lia|]. intros. lia.
  - apply pair_equal_spec in H as [<- <-]. split; [exact W|]. exists t. split; [exact T1|]. split; [unfold L; lia|]. intros r Hr Nr. congruence.
Qed.
Lemma replies_reply : replies getServerReply.
Proof.
  intros s E. unfold getServerReply, bind, getc. destruct (c_kind (s_c s)); [apply replies_raw|apply replies_tls|apply replies_tls]; exact E.
Qed.

(** A command and its reply. *)
Definition paid (m : M Z) : Prop := forall s, c_timeout (s_c s) = T ->
  c_timeout (s_c (snd (m s))) = T /\ exists t, s_t (snd (m s)) = s_t s ++ t /\ slept t <= L * activity t /\
    (fst (m s) = Done 250%Z -> slept t + L <= L * activity t).
Lemma paid_timed : forall m, paid m -> timed 0 m.
Proof. intros m H s E. destruct (H s E) as (E1 & t & T1 & S & _). split; [exact E1|]. exists t. split; [exact T1|]. rewrite N.add_0_r. exact S. Qed.
Lemma paid_command : forall (w : M send_res) (err tmo : Z) (reply : M Z) (k : send_res -> M Z),
  err <> 250%Z -> tmo <> 250%Z -> replies reply ->
  (forall s, exists ev r, w s = (Done r, mkSt (s_c s) (s_e (snd (w s))) (s_t s ++ [ev])) /\ active ev = true /\ slept [ev] = 0) ->
  (forall r, (timed 0 (k r) /\ (forall s, fst (k r s) <> Done 250%Z)) \/
             k r = (code <- reply;; if negb (code =? -1)%Z then ret code else cleanup;; ret tmo)) ->
  paid (bind w k).
Proof.
  intros w err tmo reply k Ne Nt R W K s E. destruct (bind w k s) as [o s'] eqn:H. cbn [fst snd].
  destruct (W s) as (ev & r & Hw & A & Z). unfold bind in H. rewrite Hw in H.
  match type of H with k r ?x = _ => set (s1 := x) in H end. assert (Es1 : c_timeout (s_c s1) = T) by exact E.
  assert (A1 : activity [ev] = 1) by (unfold activity; cbn [filter]; rewrite A; reflexivity).
  destruct (K r) as [[K1 K2]|Kr].
  - destruct (K1 s1 Es1) as (E2 & t & T2 & S2). specialize (K2 s1). rewrite H in *. cbn [fst snd] in *.
    split; [exact E2|]. exists ([ev] ++ t).
    split; [rewrite T2; cbn; rewrite <- app_assoc; reflexivity|]. rewrite slept_app, activity_app, Z, A1. rewrite N.mul_add_distr_l.
    rewrite N.add_0_r in S2. split; [lia|]. intros X. exfalso. exact (K2 X).
  - rewrite Kr in H. unfold bind at 1 in H. destruct (R s1 Es1) as (E2 & t & T2 & S2 & D2). destruct (reply s1) as [o2 s2]. cbn [fst snd] in *.
    assert (T3 : s_t s2 = s_t s ++ [ev] ++ t) by (rewrite T2; cbn; rewrite <- app_assoc; reflexivity).
    assert (S3 : slept ([ev] ++ t) <= L * activity ([ev] ++ t)).
    { rewrite slept_app, activity_app, Z, A1, N.mul_add_distr_l. lia. }
    destruct o2 as [code| | | | |];
      try (apply pair_equal_spec in H as [<- <-]; split; [exact E2|]; exists ([ev] ++ t); split; [exact T3|]; split; [exact S3|discriminate]).
    destruct (Z.eqb_spec code (-1)) as [->|Nc]; cbn [negb] in H.
    + destruct (timed_cleanup s2 E2) as (E4 & t4 & T4 & S4). unfold bind in H. destruct (cleanup s2) as [o4 s4]. cbn [snd] in *.
      assert (s' = s4) by (destruct o4; apply pair_equal_spec in H as [_ <-]; reflexivity). subst s'.
      split; [exact E4|]. exists (([ev] ++ t) ++ t4). split; [rewrite T4, T3, <- !app_assoc; reflexivity|].
      rewrite slept_app, (activity_app ([ev] ++ t) t4), N.mul_add_distr_l. rewrite N.add_0_r in S4. split; [lia|].
      intros ->. destruct o4; apply pair_equal_spec in H as [H _]; congruence.
    + apply pair_equal_spec in H as [<- <-]. split; [exact E2|]. exists ([ev] ++ t). split; [exact T3|]. split; [exact S3|]. intros _.
      specialize (D2 code eq_refl Nc). rewrite slept_app, activity_app, Z, A1, N.mul_add_distr_l.
      assert (L * 1 <= L * activity t) by (apply N.mul_le_mono_l; exact D2). lia.
Qed.
Lemma send_event : forall d s, exists ev r, sys_send d s = (Done r, mkSt (s_c s) (s_e (snd (sys_send d s))) (s_t s ++ [ev])) /\ active ev = true /\ slept [ev] = 0.
Proof.
  intros d s. unfold sys_send, bind, getc, gete, upde, emit, ret. destruct (e_send (s_e s)); eexists _, _; split; [reflexivity|split; reflexivity|reflexivity|split; reflexivity].
Qed.
Lemma puts_event : forall b d s, exists ev r, sys_puts b d s = (Done r, mkSt (s_c s) (s_e (snd (sys_puts b d s))) (s_t s ++ [ev])) /\ active ev = true /\ slept [ev] = 0.
Proof.
  intros b d s. unfold sys_puts, bind, getc, gete, upde, emit, ret. destruct (e_bputs (s_e s)); eexists _, _; split; [reflexivity|split; reflexivity|reflexivity|split; reflexivity].
Qed.
Lemma bind_assoc : forall {A C D} (m : M A) (k : A -> M C) (h : C -> M D) s,
  bind (bind m k) h s = bind m (fun a => bind (k a) h) s.
Proof. intros. unfold bind. destruct (m s) as [[] s1]; reflexivity. Qed.
Lemma paid_ext : forall m m', (forall s, m s = m' s) -> paid m' -> paid m.
Proof. intros m m' H P s E. rewrite H. exact (P s E). Qed.
Lemma bind_cong : forall {A C} (m : M A) (k k' : A -> M C), (forall a s, k a s = k' a s) -> forall s, bind m k s = bind m k' s.
Proof. intros A C m k k' H s. unfold bind. destruct (m s) as [[] s1]; try reflexivity. apply H. Qed.
Lemma not_done : forall {A} (m : M A) (x y : Z), x <> y -> forall s, fst ((m;; ret x) s) <> Done y.
Proof. intros A m x y N s. unfold bind. destruct (m s) as [[] s1]; cbn; congruence. Qed.
Lemma paid_getc : forall (k : client -> M Z), (forall c, paid (k c)) -> paid (bind getc k).
Proof. intros k H s E. exact (H (s_c s) s E). Qed.
Lemma paid_raw3 : forall d err tmo, (err <> 0 -> err <> 250 -> tmo <> 250 -> paid (sendRaw3 d err tmo))%Z.
Proof.
  intros d err tmo N0 Ne Nt. unfold sendRaw3, sendRaw2, sendRaw2_with.
  eapply paid_ext; [intros s; rewrite bind_assoc; reflexivity|].
  apply (paid_ext _ (bind (sys_send (cstr d)) (fun r => match r with
    | WErr er => setLastSocketErrNo er;; cleanup;; ret err
    | WSigpipe => killed
    | _ => code <- getRawCommandReply;; if negb (code =? -1)%Z then ret code else cleanup;; ret tmo end))).
  { intros s. apply bind_cong. intros [| |e|] s1; try reflexivity. rewrite bind_assoc. apply bind_cong. intros u s2.
    rewrite bind_assoc. apply bind_cong. intros u2 s3. unfold bind, ret. destruct (Z.eqb_spec err 0); [congruence|reflexivity]. }
  apply (paid_command _ err tmo getRawCommandReply); [exact Ne|exact Nt|apply replies_raw|apply send_event|].
  intros [| |e|]; [right; reflexivity|right; reflexivity|left|left].
  - split; [ts; apply timed_cleanup|]. intros s. unfold bind at 1, setLastSocketErrNo, updc. apply not_done. exact Ne.
  - split; [ts|discriminate].
Qed.
Lemma paid_feedback : forall d err tmo, (err <> 0 -> err <> 250 -> tmo <> 250 -> paid (sendFeedback d err tmo))%Z.
Proof.
  intros d err tmo N0 Ne Nt.
  assert (X : paid (sendFeedbackTLS d err tmo)).
  { unfold sendFeedbackTLS. apply paid_getc. intros c. destruct (c_bio c) as [b|]; [|apply paid_raw3; assumption].
    apply (paid_command _ err tmo getServerReply); [exact Ne|exact Nt|apply replies_reply|apply puts_event|].
    intros [| |e|]; [right; reflexivity|right; reflexivity|left|left].
    - split; [ts; apply timed_cleanup|]. intros s. unfold bind at 1, setLastSocketErrNo, updc. apply not_done. exact Ne.
    - split; [ts|discriminate]. }
  unfold sendFeedback. apply paid_getc. intros c. destruct (c_kind c); [apply paid_raw3; assumption|exact X|exact X].
Qed.
Lemma timed_fb : forall d err tmo, (err <> 0 -> err <> 250 -> tmo <> 250 -> timed 0 (sendFeedbackPtr d err tmo))%Z.
Proof.
  intros. unfold sendFeedbackPtr. ts; [apply paid_timed, paid_raw3|apply paid_timed, paid_feedback]; assumption.
Qed.

(** EHLO: the options may come in several replies. *)
Lemma timed_ehlo_loop : forall fuel tmo o, timed 1 (ehlo_loop fuel tmo o).
Proof.
  induction fuel as [|f IH]; intros tmo o; cbn [ehlo_loop]; destruct (containsAllOptions o); try (apply timed_weak; ts; fail).
  intros s E. destruct (bind getServerReply _ s) as [x s'] eqn:H. cbn [snd]. unfold bind at 1 in H.
  destruct (replies_reply s E) as (E1 & t & T1 & S1 & A1). destruct (getServerReply s) as [r s1]. cbn [fst snd] in *.
  assert (X : c_timeout (s_c s1) = T /\ exists t0, s_t s1 = s_t s ++ t0 /\ slept t0 <= L * (activity t0 + 1)).
  { split; [exact E1|]. exists t. split; [exact T1|]. rewrite N.mul_add_distr_l. lia. }
  destruct r as [code| | | | |]; try (apply pair_equal_spec in H as [_ <-]; exact X).
  destruct (Z.eqb_spec code (-1)); [apply pair_equal_spec in H as [_ <-]; exact X|].
  destruct (negb (code =? 250)%Z); [apply pair_equal_spec in H as [_ <-]; exact X|].
  unfold bind at 1, getc in H. destruct (c_resp (s_c s1)) as [rs|]; [|apply pair_equal_spec in H as [_ <-]; exact X].
  destruct (IH tmo (o ++ [LF] ++ rs) s1 E1) as (E2 & t2 & T2 & S2). rewrite H in *. cbn [snd] in *.
  split; [exact E2|]. exists (t ++ t2). split; [rewrite T2, T1, app_assoc; reflexivity|].
  specialize (A1 code eq_refl n). rewrite slept_app, activity_app. rewrite N.mul_add_distr_l in *. rewrite N.mul_add_distr_l.
  assert (L * 1 <= L * activity t) by (apply N.mul_le_mono_l; exact A1). lia.
Qed.
Lemma timed_ehlo : forall err tmo, (err <> 0 -> err <> 250 -> tmo <> 250 -> timed 0 (ehlo_with err tmo))%Z.
Proof.
  intros err tmo N0 Ne Nt. unfold ehlo_with. apply timed_bind0; [apply timed_addLog|intros _].
  intros s E. destruct (bind (sendFeedback _ _ _) _ s) as [x s'] eqn:H. cbn [snd]. unfold bind at 1 in H.
  destruct (paid_feedback EHLO err tmo N0 Ne Nt s E) as (E1 & t & T1 & S1 & P1). destruct (sendFeedback EHLO err tmo s) as [r s1]. cbn [fst snd] in *.
  assert (X : c_timeout (s_c s1) = T /\ exists t0, s_t s1 = s_t s ++ t0 /\ slept t0 <= L * (activity t0 + 0)).
  { split; [exact E1|]. exists t. split; [exact T1|]. rewrite N.add_0_r. exact S1. }
  destruct r as [code| | | | |]; try (apply pair_equal_spec in H as [_ <-]; exact X).
  destruct (Z.eqb_spec code 250) as [->|N]; cbn [negb] in H; [|apply pair_equal_spec in H as [_ <-]; exact X].
  unfold bind at 1, getc in H. destruct (c_resp (s_c s1)) as [rs|]; [|apply pair_equal_spec in H as [_ <-]; exact X].
  unfold bind, gete in H.
  match type of H with ehlo_loop ?f _ _ _ = _ => destruct (timed_ehlo_loop f tmo rs s1 E1) as (E2 & t2 & T2 & S2) end.
  rewrite H in *. cbn [snd] in *. split; [exact E2|]. exists (t ++ t2). split; [rewrite T2, T1, app_assoc; reflexivity|].
  specialize (P1 eq_refl). rewrite slept_app, activity_app. rewrite N.add_0_r. rewrite N.mul_add_distr_l in *. lia.
Qed.

(** Opening. *)
Lemma timed_fcntl : forall m, timed 0 (sys_fcntl m).
Proof. intros. unfold sys_fcntl. ts. Qed.
Lemma timed_nonblocking : timed 0 setSocketToNonBlocking.
Proof. apply idle_timed, idles_nonblocking. Qed.
Lemma timed_blocking : timed 0 setSocketToBlocking.
Proof. apply idle_timed, idles_blocking. Qed.
Lemma timed_initialize : timed 0 initializeSession.
Proof.
  unfold initializeSession, initializeSessionPOSIX, sys_gethostbyname, sys_connect, wait_connect, log_errno.
  ts; first [apply timed_nonblocking|apply timed_blocking].
Qed.
Lemma timed_greeting_result : forall r, timed 0 (greeting_result r).
Proof. intros. unfold greeting_result. ts. Qed.
Lemma timed_greetings : timed 1 checkServerGreetings.
Proof.
  intros s E. destruct (checkServerGreetings s) as [x s'] eqn:H. cbn [snd]. unfold checkServerGreetings, bind at 1 2, getc, gete in H.
  destruct (wait_loop _ _ _ _) as [[o evs] rest] eqn:W. apply wait_loop_time in W as (W & _); [|left; eexists; reflexivity|lia].
  rewrite E in W. rewrite N.sub_0_r in W. unfold bind, upde, emits, lift in H.
  destruct o as [r| | | | |]; try (apply pair_equal_spec in H as [_ <-]; split; [exact E|]; exists evs; split; [reflexivity|]; rewrite N.mul_add_distr_l; unfold L; lia).
  cbn [s_c s_e s_t] in H. match type of H with greeting_result r ?y = _ => destruct (timed_greeting_result r y E) as (E2 & t2 & T2 & S2) end.
  rewrite H in *. cbn [snd s_t] in *. split; [exact E2|]. exists (evs ++ t2). split; [rewrite T2, app_assoc; reflexivity|].
  rewrite slept_app, activity_app. rewrite !N.mul_add_distr_l in *. unfold L in *. lia.
Qed.
Lemma timed_wait_bio : timed 1 wait_bio.
Proof.
  intros s E. split; [rewrite wait_bio_timeout; exact E|]. destruct (wait_bio s) as [o s'] eqn:H. apply wait_bio_time in H as (t & T1 & S & _).
  exists t. split; [exact T1|]. rewrite N.mul_add_distr_l. unfold L. lia.
Qed.
Lemma timed_greetings_tls : timed 1 checkServerGreetingsTLS.
Proof. unfold checkServerGreetingsTLS. apply (timed_bind 1 0); [apply timed_wait_bio|apply timed_greeting_result]. Qed.
Lemma timed_starttls : timed 0 startTLSNegotiation.
Proof. unfold startTLSNegotiation, fresh_id. ts; apply timed_cleanup. Qed.
Lemma timed_upgrade : timed 0 upgradeToSecureConnection.
Proof. unfold upgradeToSecureConnection. ts. apply paid_timed, paid_raw3; discriminate. Qed.
Lemma timed_identify : timed 0 sendServerIdentification.
Proof. apply timed_ehlo; discriminate. Qed.
Lemma timed_identify_tls : timed 0 getServerSecureIdentification.
Proof. unfold getServerSecureIdentification. ts. apply timed_ehlo; discriminate. Qed.
Lemma timed_auth : timed 0 authenticate_if_needed.
Proof. unfold authenticate_if_needed, authenticateClient, authPlain, authLogin, authXOauth2. ts; apply timed_fb; discriminate. Qed.
Lemma timed_establish : timed 1 establish.
Proof.
  unfold establish. apply timed_bind1; [ts|]. intros c. destruct (c_kind c).
  - unfold establishPlain. apply timed_bind1; [apply timed_initialize|intros r]. destruct (negb _); [apply timed_weak; ts|].
    apply (timed_bind 1 0); [apply timed_greetings|intros g]. ts; first [apply timed_identify|apply timed_auth].
  - unfold establishOpp. apply timed_bind1; [apply timed_initialize|intros r]. destruct (negb _); [apply timed_weak; ts|].
    apply (timed_bind 1 0); [apply timed_greetings|intros g].
    ts; first [apply timed_identify|apply timed_auth|apply timed_upgrade|apply timed_starttls|apply timed_identify_tls].
  - unfold establishForced. apply timed_bind1; [apply timed_initialize|intros r]. destruct (negb _); [apply timed_weak; ts|].
    apply timed_bind1; [apply timed_starttls|intros r2]. destruct (negb _); [apply timed_weak; ts|].
    apply (timed_bind 1 0); [apply timed_greetings_tls|intros g]. ts; first [apply timed_identify_tls|apply timed_auth].
Qed.

(** The mail. *)
Lemma timed_mail_from : forall fmts last, timed 0 (mail_from_loop fmts last).
Proof. induction fmts; intros; cbn [mail_from_loop]; ts; [apply timed_fb; discriminate|apply IHfmts]. Qed.
Lemma timed_add : forall l r, timed 0 (addMailRecipients l r).
Proof. induction l; intros; cbn [addMailRecipients]; ts; [apply timed_fb; discriminate|apply IHl]. Qed.
Lemma timed_recipients : forall m, timed 0 (setMailRecipients m).
Proof.
  intros m. unfold setMailRecipients. apply timed_bind0; [apply timed_mail_from|]. intros c. destruct (negb _); [ts|].
  generalize [m_to m; m_cc m; m_bcc m] as ls. induction ls as [|[|l] ls IH]; cbn [recipients_loop]; ts; try apply timed_add; exact IH.
Qed.
Lemma timed_headers : forall m, timed 0 (setMailHeaders m).
Proof.
  intros m. unfold setMailHeaders, address_header, addMailHeader. ts; first [apply timed_cmd|apply timed_fb; discriminate].
Qed.
Lemma timed_chunks : forall l e, timed 0 (send_chunks l e).
Proof. induction l; intros; cbn [send_chunks]; ts; [apply timed_cmd|apply IHl]. Qed.
Lemma timed_body : forall m, timed 0 (setMailBody m).
Proof. intros m. unfold setMailBody. ts; first [apply timed_chunks|apply timed_quit|apply timed_fb; discriminate]. Qed.
Lemma timed_transaction : forall m, timed 0 (mail_transaction m).
Proof. intros m. unfold mail_transaction. ts; first [apply timed_recipients|apply timed_headers|apply timed_body|apply timed_cleanup]. Qed.
Lemma timed_sendMail : forall m, timed 1 (sendMail m).
Proof.
  intros m. unfold sendMail. apply timed_bind1; [ts|intros c]. apply (timed_bind 1 0).
  - destruct (c_conn c); [apply timed_weak; ts|apply timed_establish].
  - intros r. ts. apply timed_transaction.
Qed.
End Time.
