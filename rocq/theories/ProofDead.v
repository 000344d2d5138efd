(** What is written after the connection has been closed. *)

From Coq Require Import Ascii String List NArith ZArith Bool Lia ZifyBool ZifyNat ZifyN.
From Verif Require Import Base Lib ModelUtil ModelBase64 ModelAddress ModelAttachment
  ModelErrors ModelReply ModelMessage ModelState ModelClient ModelWorld
  ProofSteps ProofWalk ProofPhases ProofEstablish ProofLog ProofSend ProofWorld
  SpecAddress SpecText SpecReply SpecMime SpecDialogue SpecLife SpecDead
  ProofTls ProofTls2 ProofDialogue ProofMail ProofMail2 ProofLife ProofCode.
Import ListNotations.
Open Scope Z_scope.

Definition clean (t : list event) : Prop := forall fd, ~ In (EvClose fd) t.
Definition nowrite (t : list event) : Prop := forall ev, In ev t -> ~ is_write ev.

Lemma clean_nil : clean [].
Proof. intros fd []. Qed.
Lemma clean_app : forall a b, clean a -> clean b -> clean (a ++ b).
Proof. intros a b H1 H2 fd H. apply in_app_or in H as [H|H]; [exact (H1 _ H)|exact (H2 _ H)]. Qed.

(** Split of a concatenation around an element. *)
Lemma app_split : forall (a b t1 t2 : list event) x, a ++ b = t1 ++ x :: t2 ->
  (exists u, a = t1 ++ x :: u /\ t2 = u ++ b) \/ (exists u, t1 = a ++ u /\ b = u ++ x :: t2).
Proof.
  induction a as [|y a IH]; intros b t1 t2 x H; cbn in H.
  - right. exists t1. auto.
  - destruct t1 as [|z t1]; cbn in H; inversion H; subst.
    + left. exists a. auto.
    + destruct (IH _ _ _ _ H2) as [(u & -> & ->)|(u & -> & ->)]; [left; exists u; auto|right; exists u; auto].
Qed.
Lemma silent_clean_app : forall a b, clean a -> silent_after_close b -> silent_after_close (a ++ b).
Proof.
  intros a b Ha Hb t1 fd t2 ev E. apply app_split in E as [(u & -> & _)|(u & -> & E)].
  - exfalso. apply (Ha fd). apply in_or_app. right. left. reflexivity.
  - exact (Hb _ _ _ _ E).
Qed.
Lemma silent_app_nowrite : forall a b, silent_after_close a -> nowrite b -> silent_after_close (a ++ b).
Proof.
  intros a b Ha Hb t1 fd t2 ev E I. apply app_split in E as [(u & -> & ->)|(u & -> & E)].
  - apply in_app_or in I as [I|I]; [exact (Ha _ _ _ _ eq_refl I)|exact (Hb _ I)].
  - apply Hb. rewrite E. apply in_or_app. right. right. exact I.
Qed.
Lemma clean_silent : forall t, clean t -> silent_after_close t.
Proof. intros t H t1 fd t2 ev ->. exfalso. apply (H fd). apply in_or_app. right. left. reflexivity. Qed.
Lemma nowrite_silent : forall t, nowrite t -> silent_after_close t.
Proof. intros t H t1 fd t2 ev -> I. apply H. apply in_or_app. right. right. exact I. Qed.
Lemma silent_zero : forall t, silent_after_close t -> only_zero_after_close t.
Proof. intros t H t1 fd t2 ev E I W. destruct (H _ _ _ _ E I W). Qed.

(** ** Functions that close nothing *)
Definition noclose {A} (m : M A) : Prop := forall s, exists t, s_t (snd (m s)) = s_t s ++ t /\ clean t.
Lemma noclose_bind : forall {A C} (m : M A) (k : A -> M C), noclose m -> (forall a, noclose (k a)) -> noclose (bind m k).
Proof.
  intros A C m k Hm Hk s. unfold bind. destruct (Hm s) as (t1 & T1 & C1). destruct (m s) as [o s1]. cbn [snd] in *.
  destruct o as [a| | | | |]; try (exists t1; split; assumption).
  destruct (Hk a s1) as (t2 & T2 & C2). exists (t1 ++ t2). split; [rewrite T2, T1, app_assoc; reflexivity|apply clean_app; assumption].
Qed.
Definition not_close (l : label) : Prop := match l with LClose => False | _ => True end.
Lemma noclose_steps : forall s s', steps not_close s s' -> exists t, s_t s' = s_t s ++ t /\ clean t.
Proof.
  intros s s' H. induction H as [s|l s1 s2 s3 E Pl S (t2 & T2 & C2)]; [exists []; split; [symmetry; apply app_nil_r|apply clean_nil]|].
  assert (X : exists t, s_t s2 = s_t s1 ++ t /\ clean t).
  { destruct E; try contradiction; try (exists []; split; [symmetry; apply app_nil_r|apply clean_nil]);
      try (eexists; split; [reflexivity|]; intros fd [X|[]]; discriminate X).
    - exists []. log_same H. split; [rewrite T; symmetry; apply app_nil_r|apply clean_nil].
    - eexists. split; [reflexivity|]. intros fd [X|[]]. subst. inversion H.
    - eexists. split; [reflexivity|]. intros fd [X|[]]. subst. inversion H.
    - eexists. split; [reflexivity|]. intros fd [X|[]]. subst. inversion H. }
  destruct X as (t1 & T1 & C1). exists (t1 ++ t2). split; [rewrite T2, T1, app_assoc; reflexivity|apply clean_app; assumption].
Qed.
Lemma noclose_walk : forall {A} (m : M A), (forall s, walk not_close m s) -> noclose m.
Proof. intros A m H s. destruct (H s) as [W _]. exact (noclose_steps _ _ W). Qed.
Lemma noclose_same : forall {A} (m : M A), (forall s, s_t (snd (m s)) = s_t s) -> noclose m.
Proof. intros A m H s. exists []. split; [rewrite H; symmetry; apply app_nil_r|apply clean_nil]. Qed.
Lemma noclose_emit : forall ev, (forall fd, ev <> EvClose fd) -> noclose (emit ev).
Proof. intros ev H s. exists [ev]. split; [reflexivity|]. intros fd [X|[]]. exact (H fd X). Qed.
Lemma noclose_log : forall i p, noclose (addLog i p).
Proof. intros. apply noclose_walk. intros s. apply walk_addLog. exact I. Qed.
Lemma noclose_send : forall d, noclose (sys_send d).
Proof.
  intros d s. unfold sys_send, bind, getc, gete. destruct (e_send (s_e s)); eexists; (split; [reflexivity|]); intros fd [X|[]]; discriminate X.
Qed.
Lemma noclose_puts : forall b d, noclose (sys_puts b d).
Proof.
  intros b d s. unfold sys_puts, bind, gete. destruct (e_bputs (s_e s)); eexists; (split; [reflexivity|]); intros fd [X|[]]; discriminate X.
Qed.
Lemma noclose_reply : noclose getServerReply.
Proof. apply noclose_walk. intros s. apply walk_reply; exact I. Qed.
Lemma noclose_raw_reply : noclose getRawCommandReply.
Proof. apply noclose_walk. intros s. apply walk_raw_reply; exact I. Qed.
Lemma noclose_initialize : noclose initializeSession.
Proof. apply noclose_walk. intros s. apply walk_initialize; exact I. Qed.
Lemma noclose_greetings : noclose checkServerGreetings.
Proof. apply noclose_walk. intros s. apply walk_greetings; exact I. Qed.
Lemma noclose_greetings_tls : noclose checkServerGreetingsTLS.
Proof. apply noclose_walk. intros s. apply walk_greetings_tls; exact I. Qed.

(** ** Closing *)

(** The client holds no connection any more. *)
Definition off (c : client) : Prop := c_sock c = 0 /\ (c_kind c <> KPlain -> c_bio c = None /\ c_ctx c = None).

Lemma off_teardown : forall s, off (s_c (teardown s)).
Proof.
  intros s. destruct (teardown_off s) as (_ & Z & K). split; [exact Z|]. intros N. apply K. intros E. apply N.
  unfold teardown. rewrite E. exact E.
Qed.
Lemma teardown_nowrite : forall s, exists t, s_t (teardown s) = s_t s ++ t /\ nowrite t.
Proof.
  intros s. unfold teardown. destruct (c_kind (s_c s)); cbn [s_t]; (eexists; split; [reflexivity|]); intros ev I W;
    destruct (c_sock (s_c s) =? 0); try destruct (c_ctx (s_c s)); try destruct (c_bio (s_c s)); cbn in I;
    repeat (destruct I as [<-|I]; [destruct W|]); destruct I.
Qed.

Lemma cleanup_f_silent : forall n s, exists t, s_t (snd (cleanup_f n s)) = s_t s ++ t /\ silent_after_close t.
Proof.
  induction n as [|n IH]; intros s; [exists []; split; [symmetry; apply app_nil_r|apply clean_silent, clean_nil]|].
  rewrite cleanup_f_eq.
  assert (Q : forall s, exists t, s_t (snd ((if c_batch (s_c s) && c_conn (s_c s) then _ <- sendQuit_with (cleanup_f n);; ret tt else ret tt) s)) = s_t s ++ t /\ silent_after_close t).
  { clear s. intros s. destruct (_ && _); [|exists []; split; [symmetry; apply app_nil_r|apply clean_silent, clean_nil]].
    assert (P : forall (m : M send_res) (er : send_res -> M Z), noclose m ->
      (forall r s, exists t, s_t (snd (er r s)) = s_t s ++ t /\ silent_after_close t) ->
      forall s, exists t, s_t (snd (bind m er s)) = s_t s ++ t /\ silent_after_close t).
    { clear s. intros m er Hm He s. unfold bind. destruct (Hm s) as (t1 & T1 & C1). destruct (m s) as [o s1]. cbn [snd] in *.
      destruct o as [a| | | | |]; try (exists t1; split; [assumption|apply clean_silent; assumption]).
      destruct (He a s1) as (t2 & T2 & C2). exists (t1 ++ t2). split; [rewrite T2, T1, app_assoc; reflexivity|apply silent_clean_app; assumption]. }
    assert (F : forall er s, exists t, s_t (snd ((setLastSocketErrNo er;; cleanup_f n;; ret CLIENT_SENDMAIL_QUIT_ERROR) s)) = s_t s ++ t /\ silent_after_close t).
    { clear s. intros er s. destruct (IH (c_state s (set_errno er))) as (t & T & Q). exists t. split; [|exact Q].
      unfold setLastSocketErrNo, updc. unfold bind. fold (c_state s (set_errno er)).
      destruct (cleanup_f n (c_state s (set_errno er))) as [[]]; cbn [snd ret] in *; exact T. }
    assert (R : forall r s, exists t, s_t (snd (match r with WErr er => setLastSocketErrNo er;; cleanup_f n;; ret CLIENT_SENDMAIL_QUIT_ERROR | WSigpipe => killed | _ => ret 0 end s)) = s_t s ++ t /\ silent_after_close t).
    { clear s. intros r s. destruct r; try (exists []; split; [symmetry; apply app_nil_r|apply clean_silent, clean_nil]). apply F. }
    assert (G : exists t, s_t (snd (sendQuit_with (cleanup_f n) s)) = s_t s ++ t /\ silent_after_close t).
    { unfold sendQuit_with. unfold bind. destruct (noclose_log (B "QUIT" ++ CRLF) (B "c") s) as (t1 & T1 & C1). unfold logc.
      destruct (addLog (B "QUIT" ++ CRLF) (B "c") s) as [o s1]. cbn [snd] in *.
      destruct o as [a| | | | |]; try (exists t1; split; [assumption|apply clean_silent; assumption]).
      assert (X : exists t, s_t (snd (sendCommandPtr_with (cleanup_f n) (B "QUIT" ++ CRLF) CLIENT_SENDMAIL_QUIT_ERROR s1)) = s_t s1 ++ t /\ silent_after_close t).
      { unfold sendCommandPtr_with, sendRaw2_with, sendCommandTLS_with. unfold bind at 1, getc.
        destruct (c_rawptr (s_c s1)); [apply P; [apply noclose_send|exact R]|].
        destruct (c_kind (s_c s1)); [apply P; [apply noclose_send|exact R]| |];
          (unfold bind at 1; destruct (c_bio (s_c s1)); [apply P; [apply noclose_puts|exact R]|apply F]). }
      destruct X as (t2 & T2 & S2). exists (t1 ++ t2). split; [rewrite T2, T1, app_assoc; reflexivity|apply silent_clean_app; assumption]. }
    destruct G as (t & T & S). exists t. split; [|exact S]. unfold bind. destruct (sendQuit_with (cleanup_f n) s) as [[]]; exact T. }
  specialize (Q s). unfold bind at 1, getc. remember (if c_batch (s_c s) && c_conn (s_c s) then _ else _) as q eqn:Eq.
  destruct Q as (t & T & Q). unfold bind.
  destruct (q s) as [o s1] eqn:E1. cbn [snd] in *. destruct o as [u| | | | |]; try (exists t; split; assumption).
  assert (K : c_kind (s_c s) = c_kind (s_c s1)).
  { assert (W : walk stay q s).
    { subst q. assert (Wc : forall s0, walk stay (cleanup_f n) s0).
      { intros s0. apply walk_cleanup_f_quit; try exact I. apply stay_write. }
      destruct (_ && _); [|apply walk_ret]. apply walk_bind; [|intros; apply walk_ret]. unfold sendQuit_with.
      apply walk_bind; [apply walk_logc; exact I|]. intros. apply walk_cmd_ptr_with; try exact I; [exact Wc|apply stay_write]. }
    destruct W as [W _]. rewrite E1 in W. symmetry. exact (steps_kind _ _ _ W). }
  rewrite K, cleanup_tail_eq. cbn [snd]. destruct (teardown_nowrite s1) as (t2 & T2 & N2).
  exists (t ++ t2). split; [rewrite T2, T, app_assoc; reflexivity|apply silent_app_nowrite; assumption].
Qed.
Lemma cleanup_silent : forall s, exists t, s_t (snd (cleanup s)) = s_t s ++ t /\ silent_after_close t.
Proof. intros s. apply cleanup_f_silent. Qed.

(** ** Functions that stop after closing *)

(** Unless [X] holds, nothing is written after a close, and a result returned
    after a close is negative. *)
Section Dying.
Variable X : list event -> Prop.
Hypothesis X_l : forall a b, X a -> X (a ++ b).
Hypothesis X_r : forall a b, X b -> X (a ++ b).

Definition cl (m : M Z) : Prop := forall s, exists t, s_t (snd (m s)) = s_t s ++ t /\
  (X t \/ (silent_after_close t /\ (clean t \/ forall a, fst (m s) = Done a -> a < 0))).

Lemma cl_noclose : forall m, noclose m -> cl m.
Proof. intros m H s. destruct (H s) as (t & T & C). exists t. split; [exact T|]. right. split; [apply clean_silent, C|left; exact C]. Qed.
Lemma cl_bind : forall {A} (m : M A) k, noclose m -> (forall a, cl (k a)) -> cl (bind m k).
Proof.
  intros A m k Hm Hk s. unfold bind. destruct (Hm s) as (t1 & T1 & C1). destruct (m s) as [o s1]. cbn [snd] in *.
  destruct o as [a| | | | |]; try (exists t1; split; [assumption|right; split; [apply clean_silent; exact C1|left; exact C1]]).
  destruct (Hk a s1) as (t2 & T2 & K2). exists (t1 ++ t2). split; [rewrite T2, T1, app_assoc; reflexivity|].
  destruct K2 as [K2|[S2 K2]]; [left; apply X_r, K2|right]. split; [apply silent_clean_app; assumption|].
  destruct K2 as [K2|K2]; [left; apply clean_app; assumption|right; exact K2].
Qed.
(** A negative result stops the continuation. *)
Lemma cl_then : forall (m : M Z) (k : Z -> M Z), cl m -> (forall a, cl (k a)) ->
  (forall a, a < 0 -> exists b, b < 0 /\ k a = ret b) -> cl (bind m k).
Proof.
  intros m k Hm Hk Hn s. unfold bind. destruct (Hm s) as (t1 & T1 & K1). destruct (m s) as [o s1]. cbn [fst snd] in *.
  destruct o as [a| | | | |]; try (exists t1; split; [assumption|]; destruct K1 as [K1|[S1 K1]]; [left; exact K1|right; split; [exact S1|right; discriminate]]).
  destruct (Hk a s1) as (t2 & T2 & K2).
  destruct K1 as [K1|[S1 K1]]; [exists (t1 ++ t2); split; [rewrite T2, T1, app_assoc; reflexivity|left; apply X_l, K1]|].
  destruct K1 as [C1|N1].
  - exists (t1 ++ t2). split; [rewrite T2, T1, app_assoc; reflexivity|].
    destruct K2 as [K2|[S2 K2]]; [left; apply X_r, K2|right]. split; [apply silent_clean_app; assumption|].
    destruct K2 as [K2|K2]; [left; apply clean_app; assumption|right; exact K2].
  - destruct (Hn a (N1 a eq_refl)) as (b & Lb & Eb). exists t1. rewrite Eb. split; [exact T1|]. right. split; [exact S1|]. right.
    intros c Hc. cbn in Hc. inversion Hc. subst. exact Lb.
Qed.
Lemma cl_if : forall (m : M Z) c (k : M Z), 0 <= c -> cl m -> cl k -> cl (bind m (fun a => if negb (a =? c) then ret a else k)).
Proof.
  intros m c k Hc Hm Hk. apply cl_then; [exact Hm| |].
  - intros a. destruct (negb _); [apply cl_noclose, noclose_same; reflexivity|exact Hk].
  - intros a Ha. exists a. split; [exact Ha|]. replace (a =? c) with false by lia. reflexivity.
Qed.
Lemma cl_if_err : forall (m : M Z) c err (k : M Z), 0 <= c -> err < 0 -> cl m -> cl k -> cl (bind m (fun a => if negb (a =? c) then ret err else k)).
Proof.
  intros m c err k Hc He Hm Hk. apply cl_then; [exact Hm| |].
  - intros a. destruct (negb _); [apply cl_noclose, noclose_same; reflexivity|exact Hk].
  - intros a Ha. exists err. split; [exact He|]. replace (a =? c) with false by lia. reflexivity.
Qed.
Lemma cl_ret : forall r, cl (ret r).
Proof. intros. apply cl_noclose, noclose_same. reflexivity. Qed.
Lemma cl_stop : forall (o : outcome Z), (forall a, o <> Done a) -> cl (fun s => (o, s)).
Proof. intros o H. apply cl_noclose, noclose_same. reflexivity. Qed.
Lemma cl_close : forall err, err < 0 -> cl (cleanup;; ret err).
Proof.
  intros err He s. destruct (cleanup_silent s) as (t & T & S). exists t. unfold bind.
  destruct (cleanup s) as [o s1] eqn:E. cbn [fst snd] in *.
  destruct o; cbn [fst snd ret]; (split; [exact T|]); right; (split; [exact S|]); right; intros a0 H; inversion H; subst; exact He.
Qed.
Lemma cl_close_errno : forall err er, err < 0 -> cl (cleanup;; setLastSocketErrNo er;; ret err).
Proof.
  intros err er He s. destruct (cleanup_silent s) as (t & T & S). exists t. unfold bind.
  destruct (cleanup s) as [o s1] eqn:E. cbn [fst snd] in *.
  destruct o; cbn [fst snd ret setLastSocketErrNo updc s_t]; (split; [exact T|]); right; (split; [exact S|]); right; intros a0 H; inversion H; subst; exact He.
Qed.

Ltac nc1 :=
  lazymatch goal with
  | |- noclose getc => apply noclose_same; reflexivity
  | |- noclose gete => apply noclose_same; reflexivity
  | |- noclose (ret _) => apply noclose_same; reflexivity
  | |- noclose (updc _) => apply noclose_same; reflexivity
  | |- noclose (upde _) => apply noclose_same; reflexivity
  | |- noclose (lift ?o) => apply noclose_same; intros ?; destruct o; reflexivity
  | |- noclose (setLastSocketErrNo _) => apply noclose_same; reflexivity
  | |- noclose (emit _) => apply noclose_emit; intros ?; discriminate
  | |- noclose (logc _) => apply noclose_log
  | |- noclose (logs _) => apply noclose_log
  | |- noclose (addLog _ _) => apply noclose_log
  | |- noclose getServerReply => apply noclose_reply
  | |- noclose getRawCommandReply => apply noclose_raw_reply
  | |- noclose (sys_send _) => apply noclose_send
  | |- noclose (sys_puts _ _) => apply noclose_puts
  | |- noclose fresh_id => apply noclose_same; reflexivity
  end.
Ltac cl1 :=
  lazymatch goal with
  | |- cl (ret _) => apply cl_ret
  | |- cl (fail_ub _) => apply cl_stop; discriminate
  | |- cl blocked => apply cl_stop; discriminate
  | |- cl diverge => apply cl_stop; discriminate
  | |- cl killed => apply cl_stop; discriminate
  | |- cl (bind cleanup (fun _ => ret _)) => apply cl_close; first [assumption|reflexivity]
  | |- cl (bind cleanup (fun _ => bind (setLastSocketErrNo _) _)) => apply cl_close_errno; first [assumption|reflexivity]
  | |- cl (bind getc _) => apply cl_bind; [nc1|intros ?]
  | |- cl (bind _ (fun a => if negb (a =? _) then ret a else _)) => apply cl_if; [lia| |]
  | |- cl (bind _ _) => apply cl_bind; [nc1|intros ?]
  | |- cl (if ?b then _ else _) => destruct b
  | |- cl (match ?x with _ => _ end) => destruct x
  end.
Ltac cls := repeat (cl1; cbv zeta).

Lemma cl_raw2 : forall d err, err < 0 -> cl (sendRaw2 d err).
Proof. intros. unfold sendRaw2, sendRaw2_with. cls. Qed.
Lemma cl_reply : forall (m : M Z) tmo, noclose m -> tmo < 0 -> cl (code <- m;; if negb (code =? -1) then ret code else cleanup;; ret tmo).
Proof. intros m tmo Hm Ht. apply cl_bind; [exact Hm|intros a]. cls. Qed.
Lemma cl_raw3 : forall d err tmo, err < 0 -> tmo < 0 -> cl (sendRaw3 d err tmo).
Proof.
  intros d err tmo He Ht. unfold sendRaw3. apply cl_if_err; [lia|exact He|apply cl_raw2; exact He|]. apply cl_reply; [nc1|exact Ht].
Qed.
Lemma cl_fb_tls : forall d err tmo, err < 0 -> tmo < 0 -> cl (sendFeedbackTLS d err tmo).
Proof.
  intros d err tmo He Ht. unfold sendFeedbackTLS. apply cl_bind; [nc1|intros c]. destruct (c_bio c); [|apply cl_raw3; assumption].
  apply cl_bind; [nc1|intros r]. destruct r; try (apply cl_reply; [nc1|exact Ht]); cls.
Qed.
Lemma cl_feedback : forall d err tmo, err < 0 -> tmo < 0 -> cl (sendFeedback d err tmo).
Proof.
  intros d err tmo He Ht. unfold sendFeedback. apply cl_bind; [nc1|intros c].
  destruct (c_kind c); [apply cl_raw3|apply cl_fb_tls|apply cl_fb_tls]; assumption.
Qed.
Lemma cl_fb : forall d err tmo, err < 0 -> tmo < 0 -> cl (sendFeedbackPtr d err tmo).
Proof.
  intros d err tmo He Ht. unfold sendFeedbackPtr. apply cl_bind; [nc1|intros c].
  destruct (c_rawptr c); [apply cl_raw3|apply cl_feedback]; assumption.
Qed.
Lemma cl_cmd : forall d err, err < 0 -> cl (sendCommandPtr d err).
Proof.
  intros d err He. unfold sendCommandPtr, sendCommandPtr_with, sendCommandTLS_with. apply cl_bind; [nc1|intros c].
  destruct (c_rawptr c); [apply cl_raw2; exact He|]. destruct (c_kind c); [apply cl_raw2; exact He| |]; cls.
Qed.
Lemma cl_ehlo_loop : forall fuel tmo o, cl (ehlo_loop fuel tmo o).
Proof. induction fuel as [|f IH]; intros tmo o; cbn [ehlo_loop]; cls. apply IH. Qed.
Lemma cl_ehlo : forall err tmo, err < 0 -> tmo < 0 -> cl (ehlo_with err tmo).
Proof.
  intros err tmo He Ht. unfold ehlo_with. apply cl_bind; [nc1|intros _]. apply cl_if; [lia|apply cl_feedback; assumption|].
  cls. apply cl_ehlo_loop.
Qed.
Lemma cl_auth : cl authenticate_if_needed.
Proof.
  unfold authenticate_if_needed, authenticateClient, authPlain, authLogin, authXOauth2.
  apply cl_bind; [nc1|intros c]. destruct (c_cred c); [|cls].
  assert (H : cl authenticateClient).
  { unfold authenticateClient, authPlain, authLogin, authXOauth2. cls; try (apply cl_fb; reflexivity).
    apply cl_if_err; [unfold STATUS_CODE_SERVER_CHALLENGE; lia|reflexivity|apply cl_fb; reflexivity|].
    apply cl_if_err; [unfold STATUS_CODE_SERVER_CHALLENGE; lia|reflexivity|apply cl_fb; reflexivity|]. apply cl_fb; reflexivity. }
  apply cl_if; [unfold STATUS_CODE_AUTHENTICATION_SUCCEEDED; lia|exact H|]. cls.
Qed.
Lemma cl_starttls : cl startTLSNegotiation.
Proof. unfold startTLSNegotiation. cls. Qed.
Lemma cl_upgrade : cl upgradeToSecureConnection.
Proof. unfold upgradeToSecureConnection. apply cl_bind; [nc1|intros _]. apply cl_raw3; reflexivity. Qed.
Lemma cl_establish : cl establish.
Proof.
  unfold establish. apply cl_bind; [nc1|intros c]. destruct (c_kind c).
  - unfold establishPlain. apply cl_if; [lia|apply cl_noclose, noclose_initialize|].
    apply cl_if; [unfold STATUS_CODE_SERVICE_READY; lia|apply cl_noclose, noclose_greetings|].
    apply cl_if; [unfold STATUS_CODE_REQUESTED_MAIL_ACTION_OK_OR_COMPLETED; lia|apply cl_ehlo; reflexivity|]. apply cl_auth.
  - unfold establishOpp. apply cl_if; [lia|apply cl_noclose, noclose_initialize|].
    apply cl_if; [unfold STATUS_CODE_SERVICE_READY; lia|apply cl_noclose, noclose_greetings|].
    apply cl_if; [unfold STATUS_CODE_REQUESTED_MAIL_ACTION_OK_OR_COMPLETED; lia|apply cl_ehlo; reflexivity|].
    apply cl_bind; [nc1|intros c0]. apply cl_bind; [nc1|intros tls]. destruct tls; [|cls].
    apply cl_bind; [nc1|intros _]. apply cl_if; [unfold STATUS_CODE_SERVICE_READY; lia|apply cl_upgrade|].
    apply cl_if; [lia|apply cl_starttls|].
    apply cl_if; [unfold STATUS_CODE_REQUESTED_MAIL_ACTION_OK_OR_COMPLETED; lia| |apply cl_auth].
    unfold getServerSecureIdentification. apply cl_bind; [nc1|intros _]. apply cl_ehlo; reflexivity.
  - unfold establishForced. apply cl_if; [lia|apply cl_noclose, noclose_initialize|].
    apply cl_if; [lia|apply cl_starttls|].
    apply cl_if; [unfold STATUS_CODE_SERVICE_READY; lia|apply cl_noclose, noclose_greetings_tls|].
    apply cl_if; [unfold STATUS_CODE_REQUESTED_MAIL_ACTION_OK_OR_COMPLETED; lia| |apply cl_auth].
    unfold getServerSecureIdentification. apply cl_bind; [nc1|intros _]. apply cl_ehlo; reflexivity.
Qed.

(** ** The mail transaction *)
Lemma cl_mail_from : forall fmts last, cl (mail_from_loop fmts last).
Proof.
  induction fmts as [|f r IH]; intros last; cbn [mail_from_loop]; [cls|]. apply cl_bind; [nc1|intros _].
  apply cl_then; [apply cl_fb; reflexivity| |].
  - intros a. destruct (a =? 250); [cls|]. destruct (negb (a =? 501)); [cls|apply IH].
  - intros a Ha. exists a. split; [exact Ha|]. replace (a =? 250) with false by lia. replace (a =? 501) with false by lia. reflexivity.
Qed.
Lemma cl_chunks : forall err, err < 0 -> forall l, cl (send_chunks l err).
Proof.
  intros err He. induction l as [|x l IH]; cbn [send_chunks]; [cls|]. apply cl_if; [lia|apply cl_cmd; exact He|exact IH].
Qed.
Lemma cl_quit : cl sendQuitCommand.
Proof. unfold sendQuitCommand, sendQuit_with. apply cl_bind; [nc1|intros _]. apply cl_cmd. reflexivity. Qed.
Lemma cl_body : forall m, cl (setMailBody m).
Proof.
  intros m. unfold setMailBody. apply cl_bind; [nc1|intros _]. apply cl_bind; [nc1|intros e]. apply cl_bind; [nc1|intros body].
  apply cl_if; [lia|apply cl_chunks; destruct (512 <? length body)%nat; reflexivity|].
  apply cl_bind; [nc1|intros _]. apply cl_if; [unfold STATUS_CODE_REQUESTED_MAIL_ACTION_OK_OR_COMPLETED; lia|apply cl_fb; reflexivity|].
  apply cl_bind; [nc1|intros c]. destruct (c_batch c); [cls|]. apply cl_if; [lia|apply cl_quit|cls].
Qed.

(** One recipient. *)
Lemma cl_one : forall a, cl (addMailRecipients [a] 250).
Proof.
  intros a. cbn [addMailRecipients]. apply cl_bind; [nc1|intros _]. apply cl_then; [apply cl_fb; reflexivity|intros; cls|].
  intros c Hc. exists c. split; [exact Hc|]. replace (c =? 250) with false by lia. reflexivity.
Qed.
Lemma cl_recipients_loop : forall ls, (length (flat_map arr_elements ls) <= 1)%nat -> cl (recipients_loop ls).
Proof.
  induction ls as [|[n|l] r IH]; intros H; cbn [recipients_loop]; [cls|apply IH; exact H|].
  cbn [flat_map arr_elements] in H. rewrite app_length in H.
  apply cl_if; [lia| |apply IH; lia].
  destruct l as [|a [|b l]]; [cbn [addMailRecipients]; cls|apply cl_one|cbn in H; lia].
Qed.
Lemma cl_recipients : forall m, (length (all_recipients m) <= 1)%nat -> cl (setMailRecipients m).
Proof.
  intros m H. unfold setMailRecipients. apply cl_if; [lia|apply cl_mail_from|]. apply cl_recipients_loop.
  unfold all_recipients in H. cbn [flat_map]. rewrite app_nil_r. exact H.
Qed.

(** A TLS client without BIO writes nothing through sendCommand. *)
Definition muted (c : client) : Prop := c_kind c <> KPlain /\ c_rawptr c = false /\ c_bio c = None.
Definition mute {A} (m : M A) : Prop := forall s, muted (s_c s) ->
  muted (s_c (snd (m s))) /\ exists t, s_t (snd (m s)) = s_t s ++ t /\ nowrite t.
Lemma mute_bind : forall {A C} (m : M A) (k : A -> M C), mute m -> (forall a, mute (k a)) -> mute (bind m k).
Proof.
  intros A C m k Hm Hk s Hs. unfold bind. destruct (Hm s Hs) as (M1 & t1 & T1 & N1). destruct (m s) as [o s1]. cbn [snd] in *.
  destruct o as [a| | | | |]; try (split; [assumption|exists t1; split; assumption]).
  destruct (Hk a s1 M1) as (M2 & t2 & T2 & N2). split; [exact M2|]. exists (t1 ++ t2). split; [rewrite T2, T1, app_assoc; reflexivity|].
  intros ev H. apply in_app_or in H as [H|H]; auto.
Qed.
Lemma mute_same : forall {A} (m : M A), (forall s, s_t (snd (m s)) = s_t s /\ c_kind (s_c (snd (m s))) = c_kind (s_c s) /\
  c_rawptr (s_c (snd (m s))) = c_rawptr (s_c s) /\ (c_bio (s_c s) = None -> c_bio (s_c (snd (m s))) = None)) -> mute m.
Proof.
  intros A m H s (K & R & Bn). destruct (H s) as (T & K' & R' & B'). split; [unfold muted; rewrite K', R'; auto|].
  exists []. split; [rewrite T; symmetry; apply app_nil_r|intros ev []].
Qed.
Lemma mute_log : forall i p, mute (addLog i p).
Proof.
  intros i p. apply mute_same. intros s. unfold addLog, bind, getc. destruct (c_log (s_c s)); [|repeat split; auto]. cbv zeta.
  destruct (_ && _); [repeat split; auto|]. destruct (_ && _); repeat split; auto.
Qed.
Lemma getc_bind : forall {A} (k : client -> M A) s, bind getc k s = k (s_c s) s.
Proof. reflexivity. Qed.
Lemma muted_cmd : forall cl d err s, muted (s_c s) ->
  sendCommandPtr_with cl d err s = (setLastSocketErrNo ERR_NULL_BIO;; cl;; ret err) s.
Proof.
  intros cu d err s (K & R & Bn). unfold sendCommandPtr_with. rewrite getc_bind, R.
  destruct (c_kind (s_c s)); [congruence| |]; (unfold sendCommandTLS_with; rewrite getc_bind, Bn; reflexivity).
Qed.
Lemma mute_close_f : forall n, mute (cleanup_f n).
Proof.
  induction n as [|n IH]; [apply mute_same; intros s; repeat split; auto|]. intros s H. rewrite cleanup_f_eq.
  assert (Q : mute (sendQuit_with (cleanup_f n))).
  { unfold sendQuit_with. apply mute_bind; [apply mute_log|intros _]. intros s1 (K & R & Bn).
    rewrite muted_cmd by (split; [exact K|split; assumption]). revert s1 K R Bn.
    assert (Y : mute (setLastSocketErrNo ERR_NULL_BIO;; cleanup_f n;; ret CLIENT_SENDMAIL_QUIT_ERROR)).
    { apply mute_bind; [apply mute_same; intros; repeat split; auto|intros _]. apply mute_bind; [exact IH|intros _].
      apply mute_same; intros; repeat split; auto. }
    intros s1 K R Bn. apply Y. split; [exact K|split; assumption]. }
  unfold bind at 1, getc. destruct H as (K & R & Bn).
  apply (mute_bind (if c_batch (s_c s) && c_conn (s_c s) then _ <- sendQuit_with (cleanup_f n);; ret tt else ret tt)).
  - destruct (_ && _); [apply mute_bind; [exact Q|intros; apply mute_same; intros; repeat split; auto]|apply mute_same; intros; repeat split; auto].
  - intros _ s1 (K1 & R1 & B1). unfold cleanup_tail, free_tls, close_socket.
    assert (M1 : mute (updc (set_conn false))) by (apply mute_same; intros; repeat split; auto).
    assert (E : forall ev, (~ is_write ev) -> mute (emit ev)).
    { intros ev N s0 (K0 & R0 & B0). split; [split; [exact K0|split; assumption]|]. exists [ev]. split; [reflexivity|]. intros e [<-|[]]. exact N. }
    assert (U : forall f, (forall c, c_kind (f c) = c_kind c /\ c_rawptr (f c) = c_rawptr c /\ (c_bio c = None -> c_bio (f c) = None)) -> mute (updc f)).
    { intros f F. apply mute_same. intros s0. split; [reflexivity|]. destruct (F (s_c s0)) as (F1 & F2 & F3). repeat split; auto. }
    assert (Z : forall A (k : client -> M A), (forall c, mute (k c)) -> mute (bind getc k)).
    { intros A k Hk. apply mute_bind; [apply mute_same; intros; repeat split; auto|exact Hk]. }
    assert (Rt : mute (ret tt)) by (apply mute_same; intros; repeat split; auto).
    apply (mute_bind (updc (set_conn false))); [exact M1| |split; [exact K1|split; assumption]]. intros _.
    apply mute_bind.
    + destruct (c_kind (s_c s)); [exact Rt| |];
      (apply Z; intros c; apply mute_bind; [destruct (c_ctx c); [apply E; intros []|exact Rt]|intros _];
       apply mute_bind; [apply U; intros; repeat split; auto|intros _];
       apply mute_bind; [destruct (c_bio c); [apply E; intros []|exact Rt]|intros _]; apply U; intros; repeat split; auto).
    + intros _. apply Z. intros c. apply mute_bind; [destruct (_ =? _); [exact Rt|apply E; intros []]|intros _]. apply U; intros; repeat split; auto.
  - split; [exact K|split; assumption].
Qed.
Lemma mute_close : mute cleanup.
Proof. intros s. apply mute_close_f. Qed.
Lemma mute_cmd : forall d err, mute (sendCommandPtr d err).
Proof.
  intros d err s H. unfold sendCommandPtr. rewrite muted_cmd by exact H. revert s H.
  apply mute_bind; [apply mute_same; intros; repeat split; auto|intros _]. apply mute_bind; [exact mute_close|intros _].
  apply mute_same; intros; repeat split; auto.
Qed.

(** The result of a muted command is the error code. *)
Lemma muted_result : forall d err s a, muted (s_c s) -> fst (sendCommandPtr d err s) = Done a -> a = err.
Proof.
  intros d err s a H. unfold sendCommandPtr. rewrite muted_cmd by exact H. unfold bind, setLastSocketErrNo, updc.
  destruct (cleanup _) as [[]]; cbn; intros E; inversion E; reflexivity.
Qed.

Lemma grows_fail : forall er (err : Z), grows (setLastSocketErrNo er;; cleanup;; ret err).
Proof. intros. apply grows_bind; [apply grows_updc|intros _]. apply grows_bind; [apply grows_cleanup|intros; apply grows_ret]. Qed.
(** A write without reply closes because it failed, or because there is no BIO. *)
Lemma cmd_dies : forall d err, (forall t, write_failed (cstr d) t -> X t) -> forall s, exists t,
  s_t (snd (sendCommandPtr d err s)) = s_t s ++ t /\
  (X t \/ (silent_after_close t /\ (clean t \/ muted (s_c (snd (sendCommandPtr d err s)))))).
Proof.
  intros d err HX s.
  assert (Raw : exists t, s_t (snd (sendRaw2_with cleanup d err s)) = s_t s ++ t /\ (X t \/ clean t)).
  { unfold sendRaw2_with. unfold bind at 1. destruct (sys_send (cstr d) s) as [o s1] eqn:E.
    assert (S1 : exists r, o = Done r /\ s_t s1 = s_t s ++ [EvSend (c_sock (s_c s)) (cstr d) r]).
    { unfold sys_send, bind, getc, gete in E. destruct (e_send (s_e s)); inversion E; subst; eexists; split; reflexivity. }
    destruct S1 as (r & -> & T1).
    assert (C1 : clean [EvSend (c_sock (s_c s)) (cstr d) r]) by (intros fd [Y|[]]; discriminate Y).
    destruct r; try (eexists; split; [exact T1|right; exact C1]).
    match goal with |- context [setLastSocketErrNo ?e] => destruct (grows_fail e err s1) as [t2 T2] end.
    eexists. split; [rewrite T2, T1, <- app_assoc; reflexivity|]. left. apply HX. eexists. split; [left; reflexivity|]. left. eauto. }
  assert (Tls : forall b, exists t, s_t (snd ((r <- sys_puts b (cstr d);;
      match r with WErr er => setLastSocketErrNo er;; cleanup;; ret err | WSigpipe => killed | _ => ret 0 end) s)) = s_t s ++ t /\ (X t \/ clean t)).
  { intros b. unfold bind at 1. destruct (sys_puts b (cstr d) s) as [o s1] eqn:E.
    assert (S1 : exists r, o = Done r /\ s_t s1 = s_t s ++ [EvPuts (bio_id b) (cstr d) r]).
    { unfold sys_puts, bind, gete in E. destruct (e_bputs (s_e s)); inversion E; subst; eexists; split; reflexivity. }
    destruct S1 as (r & -> & T1).
    assert (C1 : clean [EvPuts (bio_id b) (cstr d) r]) by (intros fd [Y|[]]; discriminate Y).
    destruct r; try (eexists; split; [exact T1|right; exact C1]).
    match goal with |- context [setLastSocketErrNo ?e] => destruct (grows_fail e err s1) as [t2 T2] end.
    eexists. split; [rewrite T2, T1, <- app_assoc; reflexivity|]. left. apply HX. eexists. split; [left; reflexivity|]. right. eauto. }
  assert (Q : forall r : outcome Z * st, (exists t, s_t (snd r) = s_t s ++ t /\ (X t \/ clean t)) ->
    exists t, s_t (snd r) = s_t s ++ t /\ (X t \/ (silent_after_close t /\ (clean t \/ muted (s_c (snd r)))))).
  { intros r (t & T & [H|H]); exists t; (split; [exact T|]); [left; exact H|right; split; [apply clean_silent, H|left; exact H]]. }
  destruct (c_rawptr (s_c s)) eqn:R; [|destruct (c_kind (s_c s)) eqn:K; [|destruct (c_bio (s_c s)) as [b|] eqn:Bn|destruct (c_bio (s_c s)) as [b|] eqn:Bn]].
  - unfold sendCommandPtr, sendCommandPtr_with. rewrite getc_bind, R. apply Q. exact Raw.
  - unfold sendCommandPtr, sendCommandPtr_with. rewrite getc_bind, R, K. apply Q. exact Raw.
  - unfold sendCommandPtr, sendCommandPtr_with, sendCommandTLS_with. rewrite getc_bind, R, K, getc_bind, Bn. apply Q. apply Tls.
  - destruct (mute_cmd d err s) as (M1 & t & T & N); [split; [congruence|split; assumption]|].
    exists t. split; [exact T|]. right. split; [apply nowrite_silent, N|right; exact M1].
  - unfold sendCommandPtr, sendCommandPtr_with, sendCommandTLS_with. rewrite getc_bind, R, K, getc_bind, Bn. apply Q. apply Tls.
  - destruct (mute_cmd d err s) as (M1 & t & T & N); [split; [congruence|split; assumption]|].
    exists t. split; [exact T|]. right. split; [apply nowrite_silent, N|right; exact M1].
Qed.

Definition failing_header (field : str) (a : arr address) (t : list event) : Prop :=
  write_failed (cstr (header_line field (generateHeaderAddressValues (arr_elements a)))) t.

Lemma header_dies : forall field a, (forall t, failing_header field a t -> X t) -> forall s, exists t,
  s_t (snd (address_header field a s)) = s_t s ++ t /\
  (X t \/ (silent_after_close t /\ (clean t \/ muted (s_c (snd (address_header field a s)))))).
Proof.
  intros field a HX s.
  assert (Nl : exists t, s_t s = s_t s ++ t /\ (X t \/ (silent_after_close t /\ (clean t \/ muted (s_c s))))).
  { exists []. split; [symmetry; apply app_nil_r|]. right. split; [apply clean_silent, clean_nil|left; apply clean_nil]. }
  destruct a as [[|n]|[|x l]]; try exact Nl.
  destruct (address_header field (AArr (x :: l)) s) as [o' s'] eqn:H. cbn [snd].
  unfold address_header in H. remember (x :: l) as l0 eqn:E0. clear E0.
  unfold addMailHeader in H. unfold bind, logc in H.
  destruct (noclose_log (header_line field (generateHeaderAddressValues l0)) (B "c") s) as (t1 & T1 & C1).
  destruct (addLog (header_line field (generateHeaderAddressValues l0)) (B "c") s) as [o s1]. cbn [snd] in T1.
  destruct o as [u| | | | |]; try (inversion H; subst; exists t1; split; [exact T1|right; split; [apply clean_silent, C1|left; exact C1]]).
  destruct (cmd_dies (header_line field (generateHeaderAddressValues l0)) CLIENT_SENDMAIL_HEADERTOANDCC_ERROR) with (s := s1) as (t2 & T2 & K2).
  { intros t Ht. apply HX. exact Ht. }
  exists (t1 ++ t2). destruct (sendCommandPtr _ _ s1) as [o2 s2]. cbn [snd] in *.
  assert (E : s_t s2 = s_t s ++ t1 ++ t2) by (rewrite T2, T1, app_assoc; reflexivity).
  assert (s' = s2) as -> by (destruct o2; inversion H; reflexivity). split; [exact E|].
  destruct K2 as [K2|[S2 K2]]; [left; apply X_r, K2|right; split; [apply silent_clean_app; assumption|]; destruct K2 as [K2|K2]; [left; apply clean_app; assumption|right; exact K2]].
Qed.

Definition mutez (m : M Z) : Prop := mute m /\ forall s a, muted (s_c s) -> fst (m s) = Done a -> a < 0.
Lemma mutez_bind : forall {A} (m : M A) (k : A -> M Z), mute m -> (forall a, mutez (k a)) -> mutez (bind m k).
Proof.
  intros A m k Hm Hk. split; [apply mute_bind; [exact Hm|intros; apply Hk]|].
  intros s a H. unfold bind. destruct (Hm s H) as (M1 & _). destruct (m s) as [o s1]. destruct o; cbn; try discriminate. apply Hk. exact M1.
Qed.
Lemma cl_header : forall field a k, (forall t, failing_header field a t -> X t) -> cl k -> mutez k -> cl (address_header field a;; k).
Proof.
  intros field a k HX Hk [Hm Hn] s. destruct (header_dies field a HX s) as (t1 & T1 & K1). unfold bind.
  destruct (address_header field a s) as [o s1]. cbn [fst snd] in *.
  destruct o as [u| | | | |]; try (exists t1; split; [exact T1|]; destruct K1 as [K1|[S1 K1]]; [left; exact K1|right; split; [exact S1|right; discriminate]]).
  destruct (Hk s1) as (t2 & T2 & K2).
  assert (E : s_t (snd (k s1)) = s_t s ++ t1 ++ t2) by (rewrite T2, T1, app_assoc; reflexivity).
  exists (t1 ++ t2). split; [exact E|].
  destruct K1 as [K1|[S1 K1]]; [left; apply X_l, K1|]. destruct K1 as [C1|M1].
  - destruct K2 as [K2|[S2 K2]]; [left; apply X_r, K2|right]. split; [apply silent_clean_app; assumption|].
    destruct K2 as [K2|K2]; [left; apply clean_app; assumption|right; exact K2].
  - right. destruct (Hm s1 M1) as (_ & t2' & T2' & N2). rewrite T2 in T2'. apply app_inv_head in T2'. subst t2'.
    split; [apply silent_app_nowrite; assumption|]. right. intros a0 H0. exact (Hn _ _ M1 H0).
Qed.
Lemma mute_header : forall field a, mute (address_header field a).
Proof.
  intros field a. unfold address_header, addMailHeader.
  destruct a as [[|n]|[|x l]]; try (apply mute_same; intros; repeat split; auto; fail).
  apply mute_bind; [apply mute_bind; [apply mute_log|intros _; apply mute_cmd]|intros _; apply mute_same; intros; repeat split; auto].
Qed.
Lemma cl_headers : forall m, (forall t, failing_header (B "To") (m_to m) t -> X t) -> (forall t, failing_header (B "Cc") (m_cc m) t -> X t) ->
  cl (setMailHeaders m).
Proof.
  intros m H1 H2. unfold setMailHeaders. apply cl_bind; [nc1|intros _].
  apply cl_if; [unfold STATUS_CODE_START_MAIL_INPUT; lia|apply cl_fb; reflexivity|].
  apply cl_if; [lia|unfold addMailHeader; apply cl_bind; [nc1|intros _; apply cl_cmd; reflexivity]|].
  assert (Z : mutez (logc (header_line (B "Subject") (m_subject m));;
    s <- sendCommandPtr (header_line (B "Subject") (m_subject m)) CLIENT_SENDMAIL_HEADERSUBJECT_ERROR;;
    if negb (s =? 0) then ret s else
    logc CONTENT_TYPE_LINE;;
    t <- sendCommandPtr CONTENT_TYPE_LINE CLIENT_SENDMAIL_HEADERCONTENTTYPE_ERROR;;
    if negb (t =? 0) then ret t else ret 0)).
  { apply mutez_bind; [apply mute_log|intros _]. split.
    - apply mute_bind; [apply mute_cmd|intros a]. destruct (negb _); [apply mute_same; intros; repeat split; auto|].
      apply mute_bind; [apply mute_log|intros _]. apply mute_bind; [apply mute_cmd|intros b]. destruct (negb _); apply mute_same; intros; repeat split; auto.
    - intros s a H. unfold bind at 1.
      assert (R := muted_result (header_line (B "Subject") (m_subject m)) CLIENT_SENDMAIL_HEADERSUBJECT_ERROR s).
      destruct (sendCommandPtr (header_line (B "Subject") (m_subject m)) CLIENT_SENDMAIL_HEADERSUBJECT_ERROR s) as [o s1]. cbn [fst] in R.
      destruct o as [c| | | | |]; try discriminate. rewrite (R c H eq_refl). cbn. intros E. inversion E. reflexivity. }
  apply cl_header; [exact H1| |apply mutez_bind; [apply mute_header|intros _; exact Z]].
  apply cl_header; [exact H2| |exact Z].
  apply cl_bind; [nc1|intros _]. apply cl_if; [lia|apply cl_cmd; reflexivity|].
  apply cl_bind; [nc1|intros _]. apply cl_if; [lia|apply cl_cmd; reflexivity|]. cls.
Qed.

(** The whole transaction: nothing matters after the last close. *)
Lemma dies_transaction : forall m, (length (all_recipients m) <= 1)%nat ->
  (forall t, failing_header (B "To") (m_to m) t -> X t) -> (forall t, failing_header (B "Cc") (m_cc m) t -> X t) ->
  forall s, exists t, s_t (snd (mail_transaction m s)) = s_t s ++ t /\ (X t \/ silent_after_close t).
Proof.
  intros m H1 H2 H3.
  assert (F : forall (p : M Z) c (k : M Z), 0 <= c -> cl p -> (forall s, exists t, s_t (snd (k s)) = s_t s ++ t /\ (X t \/ silent_after_close t)) ->
    forall s, exists t, s_t (snd ((a <- p;; if negb (a =? c) then ret a else k) s)) = s_t s ++ t /\ (X t \/ silent_after_close t)).
  { intros p c k Hc Hp Hk s. unfold bind. destruct (Hp s) as (t1 & T1 & K1). destruct (p s) as [o s1]. cbn [fst snd] in *.
    destruct o as [a| | | | |]; try (exists t1; split; [assumption|]; destruct K1 as [K1|[S1 _]]; [left; exact K1|right; exact S1]).
    destruct (a =? c) eqn:E; cbn [negb]; [|exists t1; split; [exact T1|]; destruct K1 as [K1|[S1 _]]; [left; exact K1|right; exact S1]].
    destruct (Hk s1) as (t2 & T2 & K2). exists (t1 ++ t2). split; [rewrite T2, T1, app_assoc; reflexivity|].
    destruct K1 as [K1|[S1 K1]]; [left; apply X_l, K1|]. destruct K1 as [C1|N1]; [|specialize (N1 a eq_refl); lia].
    destruct K2 as [K2|K2]; [left; apply X_r, K2|right; apply silent_clean_app; assumption]. }
  unfold mail_transaction. apply F; [lia|apply cl_recipients; exact H1|]. apply F; [lia|apply cl_headers; assumption|].
  apply F; [lia|apply cl_body|]. intros s. rewrite getc_bind. unfold bind.
  destruct (c_batch (s_c s)); [exists []; split; [symmetry; apply app_nil_r|right; apply clean_silent, clean_nil]|].
  destruct (cleanup_silent s) as (t & T & S). destruct (cleanup s) as [[]]; exists t; (split; [exact T|right; exact S]).
Qed.
Lemma dies_send : forall m, (length (all_recipients m) <= 1)%nat ->
  (forall t, failing_header (B "To") (m_to m) t -> X t) -> (forall t, failing_header (B "Cc") (m_cc m) t -> X t) ->
  forall s, exists t, s_t (snd (sendMail m s)) = s_t s ++ t /\ (X t \/ silent_after_close t).
Proof.
  intros m H1 H2 H3 s. unfold sendMail. rewrite getc_bind.
  assert (E : cl (if c_conn (s_c s) then ret 0 else establish)) by (destruct (c_conn (s_c s)); [apply cl_ret|apply cl_establish]).
  remember (if c_conn (s_c s) then ret 0 else establish) as p. clear Heqp.
  unfold bind at 1. destruct (E s) as (t1 & T1 & K1). destruct (p s) as [o s1]. cbn [fst snd] in *.
  destruct o as [a| | | | |]; try (exists t1; split; [assumption|]; destruct K1 as [K1|[S1 _]]; [left; exact K1|right; exact S1]).
  destruct (a =? 0) eqn:Ea; cbn [negb]; [|exists t1; split; [exact T1|]; destruct K1 as [K1|[S1 _]]; [left; exact K1|right; exact S1]].
  destruct (dies_transaction m H1 H2 H3 (c_state s1 (set_conn true))) as (t2 & T2 & K2). cbn [s_t c_state] in T2.
  exists (t1 ++ t2). split; [unfold bind, updc; fold (c_state s1 (set_conn true)); rewrite T2, T1, app_assoc; reflexivity|].
  destruct K1 as [K1|[S1 K1]]; [left; apply X_l, K1|]. destruct K1 as [C1|N1]; [|specialize (N1 a eq_refl); lia].
  destruct K2 as [K2|K2]; [left; apply X_r, K2|right; apply silent_clean_app; assumption].
Qed.
End Dying.

(** ** Any message: after the close only descriptor 0 is written *)
Definition zero_writes (t : list event) : Prop := forall ev, In ev t -> is_write ev -> exists d r, ev = EvSend 0 d r.
Lemma off_estep : forall l s s', estep l s s' -> stay l -> off (s_c s) -> off (s_c s') /\ exists t, s_t s' = s_t s ++ t /\ zero_writes t.
Proof.
  intros l s s' H Sl Ho. destruct (estep_stay _ _ _ H Sl) as (t & T & _ & [(-> & Hc)|(_ & Es & Eb & Ex & Hw)]).
  - split; [apply off_teardown|]. exists t. split; [exact T|]. intros ev I W. specialize (Hc ev I). destruct ev; try destruct Hc; destruct W.
  - assert (K := estep_kind _ _ _ H). split; [unfold off in *; rewrite Es, Eb, Ex, K; exact Ho|]. exists t. split; [exact T|].
    intros ev I W. destruct (Hw ev I) as [_ Hd]. destruct (Hd W) as [d [(r & ->)|(b & r & Nk & Hb & ->)]].
    + destruct Ho as [-> _]. eauto.
    + destruct Ho as [_ Ho]. destruct (Ho Nk). congruence.
Qed.
Lemma off_steps : forall s s', steps stay s s' -> off (s_c s) -> exists t, s_t s' = s_t s ++ t /\ zero_writes t.
Proof.
  intros s s' H. induction H as [s|l s1 s2 s3 E Pl S IH]; intros Ho; [exists []; split; [symmetry; apply app_nil_r|intros ev []]|].
  destruct (off_estep _ _ _ E Pl Ho) as (Ho2 & t1 & T1 & Z1). destruct (IH Ho2) as (t2 & T2 & Z2).
  exists (t1 ++ t2). split; [rewrite T2, T1, app_assoc; reflexivity|]. intros ev I W. apply in_app_or in I as [I|I]; eauto.
Qed.
Lemma stay_zero : forall s s', steps stay s s' -> exists t, s_t s' = s_t s ++ t /\ only_zero_after_close t.
Proof.
  intros s s' H. induction H as [s|l s1 s2 s3 E Pl S (t2 & T2 & Z2)].
  - exists []. split; [symmetry; apply app_nil_r|]. intros t1 fd t2 ev H. destruct t1; discriminate H.
  - destruct (estep_stay _ _ _ E Pl) as (t1 & T1 & _ & K1). exists (t1 ++ t2).
    split; [rewrite T2, T1, app_assoc; reflexivity|].
    intros u1 fd u2 ev Eq I W. apply app_split in Eq as [(u & -> & ->)|(u & -> & Eq)]; [|exact (Z2 _ _ _ _ Eq I W)].
    destruct K1 as [(-> & Hc)|(_ & _ & _ & _ & Hw)].
    + apply in_app_or in I as [I|I].
      * assert (X : closing_event ev) by (apply Hc; apply in_or_app; right; right; exact I). destruct ev; try destruct X; destruct W.
      * destruct (off_steps _ _ S (off_teardown s1)) as (t2' & T2' & Z). rewrite T2 in T2'. apply app_inv_head in T2'. subst t2'. exact (Z _ I W).
    + destruct (Hw (EvClose fd)) as [X _]; [apply in_or_app; right; left; reflexivity|]. exfalso. apply X. constructor.
Qed.
Lemma send_zero : forall m s, exists t, s_t (snd (sendMail m s)) = s_t s ++ t /\ only_zero_after_close t.
Proof.
  intros m s. unfold sendMail. rewrite getc_bind.
  assert (E : cl (fun _ => False) (if c_conn (s_c s) then ret 0 else establish)).
  { destruct (c_conn (s_c s)); [apply cl_ret; intros ? ? []|apply cl_establish; intros ? ? []]. }
  remember (if c_conn (s_c s) then ret 0 else establish) as p. clear Heqp.
  unfold bind at 1. destruct (E s) as (t1 & T1 & K1). destruct (p s) as [o s1]. cbn [fst snd] in *.
  destruct K1 as [[]|[S1 K1]].
  destruct o as [a| | | | |]; try (exists t1; split; [assumption|apply silent_zero, S1]).
  destruct (a =? 0) eqn:Ea; cbn [negb]; [|exists t1; split; [exact T1|apply silent_zero, S1]].
  destruct K1 as [C1|N1]; [|specialize (N1 a eq_refl); lia].
  destruct (stay_transaction m (c_state s1 (set_conn true))) as [W _]. apply stay_zero in W as (t2 & T2 & Z2). cbn [s_t c_state] in T2.
  exists (t1 ++ t2). split; [unfold bind, updc; fold (c_state s1 (set_conn true)); rewrite T2, T1, app_assoc; reflexivity|].
  intros u1 fd u2 ev Eq I W. apply app_split in Eq as [(u & -> & _)|(u & -> & Eq)].
  - exfalso. apply (C1 fd). apply in_or_app. right. left. reflexivity.
  - exact (Z2 _ _ _ _ Eq I W).
Qed.

(** ** At the level of programs *)
Lemma world_send_zero : forall i m w x w' t, step (OSend i m) w = (x, w') -> w_trace w' = w_trace w ++ t -> only_zero_after_close t.
Proof.
  intros i m w x w' t H T. cbn [step] in H. unfold run_on in H. destruct (get_client w i) as [c|].
  - destruct (send_zero m (mkSt c (w_env w) (w_trace w))) as (t' & T' & Z).
    destruct (sendMail m (mkSt c (w_env w) (w_trace w))) as [o s]. inversion H; subst. cbn [w_trace snd s_t] in *.
    rewrite T in T'. apply app_inv_head in T'. subst. exact Z.
  - inversion H; subst. rewrite <- (app_nil_r (w_trace w')) in T at 1. apply app_inv_head in T. subst t.
    intros t1 fd t2 ev E. destruct t1; discriminate E.
Qed.
Lemma world_send_silent : forall i m w x w' t, step (OSend i m) w = (x, w') -> w_trace w' = w_trace w ++ t ->
  (length (all_recipients m) <= 1)%nat ->
  (forall field a, In (field, a) [(B "To", m_to m); (B "Cc", m_cc m)] ->
    ~ write_failed (cstr (header_line field (generateHeaderAddressValues (arr_elements a)))) t) ->
  silent_after_close t.
Proof.
  intros i m w x w' t H T L NF. cbn [step] in H. unfold run_on in H. destruct (get_client w i) as [c|].
  - set (X := fun t => failing_header (B "To") (m_to m) t \/ failing_header (B "Cc") (m_cc m) t).
    assert (Fl : forall d a b, write_failed d a -> write_failed d (a ++ b)).
    { intros d a b (ev & I & K). exists ev. split; [apply in_or_app; left; exact I|exact K]. }
    assert (Fr : forall d a b, write_failed d b -> write_failed d (a ++ b)).
    { intros d a b (ev & I & K). exists ev. split; [apply in_or_app; right; exact I|exact K]. }
    destruct (dies_send X) with (m := m) (s := mkSt c (w_env w) (w_trace w)) as (t' & T' & Z).
    + intros a b [K|K]; [left|right]; apply Fl; exact K.
    + intros a b [K|K]; [left|right]; apply Fr; exact K.
    + exact L.
    + intros u K. left. exact K.
    + intros u K. right. exact K.
    + destruct (sendMail m (mkSt c (w_env w) (w_trace w))) as [o s]. inversion H; subst. cbn [w_trace snd s_t] in *.
      rewrite T in T'. apply app_inv_head in T'. subst. destruct Z as [[Z|Z]|Z]; [| |exact Z]; exfalso.
      * eapply NF; [left; reflexivity|exact Z].
      * eapply NF; [right; left; reflexivity|exact Z].
  - inversion H; subst. rewrite <- (app_nil_r (w_trace w')) in T at 1. apply app_inv_head in T. subst t.
    intros t1 fd t2 ev E. destruct t1; discriminate E.
Qed.
Lemma world_destroy_silent : forall i w x w' t, step (ODestroy i) w = (x, w') -> w_trace w' = w_trace w ++ t -> silent_after_close t.
Proof.
  intros i w x w' t H T. cbn [step] in H. unfold run_on in H. destruct (get_client w i) as [c|].
  - destruct (cleanup_silent (mkSt c (w_env w) (w_trace w))) as (t' & T' & Z). unfold bind in H.
    destruct (cleanup (mkSt c (w_env w) (w_trace w))) as [o s]. cbn [snd s_t] in T'.
    assert (E : w_trace w' = s_t s) by (destruct o; inversion H; reflexivity).
    rewrite <- E, T in T'. apply app_inv_head in T'. subst. exact Z.
  - inversion H; subst. rewrite <- (app_nil_r (w_trace w')) in T at 1. apply app_inv_head in T. subst t.
    intros t1 fd t2 ev E. destruct t1; discriminate E.
Qed.
