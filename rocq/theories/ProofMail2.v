(** What happens when a mail is sent, as seen by the caller. *)

From Coq Require Import Ascii String List NArith ZArith Bool Lia ZifyBool ZifyNat ZifyN.
From Verif Require Import Base Lib ModelUtil ModelBase64 ModelAddress ModelAttachment
  ModelErrors ModelReply ModelMessage ModelState ModelClient ModelWorld
  ProofSteps ProofWalk ProofPhases ProofEstablish ProofLog ProofSend ProofWorld
  SpecAddress SpecText SpecReply SpecMime SpecBase64 SpecDialogue ProofReply ProofAddress ProofBase64 ProofMime
  ProofTls ProofTls2 ProofDialogue ProofMail.
Import ListNotations.
Open Scope Z_scope.

Lemma written_app : forall a b, written (a ++ b) = written a ++ written b.
Proof.
  unfold written, exchanges. induction a as [|ev a IH]; intros b; [reflexivity|]. specialize (IH b).
  destruct ev; cbn [dialogue app]; try exact IH; try destruct r;
    destruct (dialogue (a ++ b)), (dialogue a); cbn in *; try rewrite IH; reflexivity.
Qed.
Lemma written_write : forall d ev, writes d ev -> written [ev] = [d].
Proof. intros d ev [(fd & r & ->)|(b & r & ->)]; reflexivity. Qed.
Lemma silent_written : forall t, writes_nothing t -> written t = [].
Proof.
  intros t. induction t as [|ev t IH]; intros H; [reflexivity|]. change (ev :: t) with ([ev] ++ t). rewrite written_app.
  rewrite IH by (intros e He; apply H; right; exact He). specialize (H ev (or_introl eq_refl)).
  destruct ev; try reflexivity; try destruct H; destruct r; reflexivity.
Qed.

Lemma steps_written : forall (P : label -> Prop) s s', steps P s s' ->
  exists t, s_t s' = s_t s ++ t /\ forall d, In d (written t) -> P (LSend d) \/ P (LPuts d) \/ (d = STARTTLS /\ P LUpgrade).
Proof.
  intros P s s' H. induction H as [s|l s1 s2 s3 E Pl S (t2 & T2 & W2)].
  - exists []. split; [symmetry; apply app_nil_r|intros d []].
  - assert (X : exists t, s_t s2 = s_t s1 ++ t /\ forall d, In d (written t) -> P (LSend d) \/ P (LPuts d) \/ (d = STARTTLS /\ P LUpgrade)).
    { destruct l; try (destruct (estep_silent _ _ _ E) as (t & T & W); [exact (fun x => x)|]; exists t; split; [exact T|];
        rewrite (silent_written t W); intros d []).
      - inversion E; subst. eexists. split; [reflexivity|]. intros x [<-|[]]. auto.
      - inversion E; subst. eexists. split; [reflexivity|]. intros x [<-|[]]. auto.
      - inversion E; subst. eexists. split; [reflexivity|]. intros x [<-|[]]. auto. }
    destruct X as (t1 & T1 & W1). exists (t1 ++ t2). split; [rewrite T2, T1, app_assoc; reflexivity|].
    intros d Hd. rewrite written_app in Hd. apply in_app_or in Hd as [Hd|Hd]; auto.
Qed.

Definition conn_label (l : label) : Prop :=
  match l with LConn => False | LSend d | LPuts d => connection_line d | _ => True end.
Lemma conn_base : forall l, base l -> conn_label l.
Proof. intros [] H; try exact I; destruct H. Qed.

Lemma cstr_in : forall s c, In c (cstr s) -> In c s.
Proof. intros s c H. destruct (cstr_prefix s) as [y ->]. apply in_or_app. left. exact H. Qed.
Lemma encode_no_space : forall s, ~ In " "%char (cstr (Encode s ++ CRLF)).
Proof.
  intros s H. apply cstr_in in H. apply in_app_or in H as [H|H].
  - assert (C := encode_charset s). rewrite Forall_forall in C. apply C in H. destruct H as [H|[H|[H|H]]]; try discriminate.
    vm_compute in H. intuition discriminate.
  - cbn in H. intuition discriminate.
Qed.
Lemma auth_connection : forall cr d, In d (auth_lines cr) -> connection_line (cstr d).
Proof.
  intros cr d H. destruct H as [<-|[<-|[<-|[<-|[<-|[]]]]]].
  - right; right; left. unfold plain_command. eexists. reflexivity.
  - right; right; left. eexists. reflexivity.
  - right; right; right. apply encode_no_space.
  - right; right; right. apply encode_no_space.
  - right; right; left. unfold xoauth2_command. eexists. reflexivity.
Qed.
Lemma establish_conn : forall s, c_conn (s_c s) = false -> walk conn_label establish s.
Proof.
  intros s C. apply westablish; try assumption.
  all: try exact conn_base; try exact I; try (left; reflexivity).
  all: try (intros H; exact H); try (intros H; exact I).
  all: try (intros cr d _ Hd; split; intros; apply auth_connection with cr; exact Hd).
Qed.

Lemma set_conn_same : forall s, c_conn (s_c s) = true -> c_state s (set_conn true) = s.
Proof. intros [c e t] H. destruct c. cbn in H. subst. reflexivity. Qed.

(** [sendMail] from [s]: the connection took the events [t1] to the state [s1]
    and the transaction is what remains. *)
Lemma send_split : forall m s x s', sendMail m s = (x, s') ->
  exists s1 t1, s_t s1 = s_t s ++ t1 /\ Forall connection_line (written t1) /\
    (c_conn (s_c s) = true -> t1 = [] /\ s1 = s) /\
    ((s' = s1 /\ x <> Done 0) \/
     (c_conn (s_c s1) = true /\ config (s_c s1) = config (s_c s) /\ e_fs (s_e s1) = e_fs (s_e s) /\ mail_transaction m s1 = (x, s'))).
Proof.
  intros m s x s' H. destruct (c_conn (s_c s)) eqn:C.
  - rewrite sendMail_old in H by assumption. unfold bind, updc in H.
    change (mkSt (set_conn true (s_c s)) (s_e s) (s_t s)) with (c_state s (set_conn true)) in H. rewrite set_conn_same in H by assumption.
    exists s, []. rewrite app_nil_r. split; [reflexivity|]. split; [constructor|]. split; [auto|]. right. auto.
  - rewrite sendMail_new in H by assumption. destruct (establish_conn s C) as [W _].
    destruct (establish s) as [o s1] eqn:E. cbn [snd] in W.
    destruct (steps_written _ _ _ W) as (t1 & T1 & Hw).
    assert (Cl : Forall connection_line (written t1)).
    { apply Forall_forall. intros d Hd. destruct (Hw d Hd) as [X|[X|[-> _]]]; [exact X|exact X|right; left; reflexivity]. }
    unfold bind in H. rewrite E in H. 
    destruct o as [r| | | | |]; try (inversion H; subst; exists s', t1; split; [exact T1|]; split; [exact Cl|]; split; [discriminate|]; left; split; [reflexivity|discriminate]).
    unfold finish in H. destruct (r =? 0) eqn:R; cbn [negb] in H.
    + unfold bind, updc in H. exists (c_state s1 (set_conn true)), t1. split; [exact T1|]. split; [exact Cl|]. split; [discriminate|].
      right. split; [reflexivity|]. split; [|split; [exact (steps_fs _ _ _ W)|exact H]].
      change (config (s_c (c_state s1 (set_conn true)))) with (config (s_c s1)). exact (steps_config _ _ _ W).
    + inversion H; subst. exists s', t1. split; [exact T1|]. split; [exact Cl|]. split; [discriminate|]. left. split; [reflexivity|].
      intros X. inversion X; subst. discriminate R.
Qed.

Lemma opens_quiet : forall {A} d (m : M A) s, opens d m -> exists t, s_t (snd (m s)) = s_t s ++ t /\ talk t (exchanges t).
Proof.
  intros A d m s H. destruct (H s) as (t & T & W). exists t. split; [exact T|]. unfold talk, exchanges.
  destruct W as [->|(ev & r & -> & [(fd & q & ->)|(b & q & ->)])]; [reflexivity| |]; cbn [dialogue]; destruct (dialogue r); reflexivity.
Qed.
Lemma opens_transaction : forall m, exists d, opens d (mail_transaction m).
Proof.
  intros m. eexists. unfold mail_transaction, setMailRecipients, mail_formats. cbn [mail_from_loop].
  intros s. rewrite !bind_assoc. revert s. apply opens_log. apply opens1_opens. intros s. rewrite !bind_assoc. revert s.
  apply opens1_bind; [apply opens1_fb|]. intros c. grow.
Qed.

Lemma transaction_quiet : forall m s x s', mail_transaction m s = (x, s') -> exists t, s_t s' = s_t s ++ t /\ talk t (exchanges t).
Proof.
  intros m s x s' H. destruct (opens_transaction m) as [d O]. destruct (opens_quiet d _ s O) as (t & T & K). rewrite H in T. eauto.
Qed.
Lemma conn_exchanges : forall t, map fst (exchanges t) = written t.
Proof. reflexivity. Qed.

(** The split of the exchanges. *)
Lemma send_phases : forall m s x s' t, sendMail m s = (x, s') -> s_t s' = s_t s ++ t ->
  exists conn mail s1 t2, phases (c_conn (s_c s)) t conn mail /\ mail = exchanges t2 /\
    ((mail = [] /\ x <> Done 0) \/
     (c_conn (s_c s1) = true /\ config (s_c s1) = config (s_c s) /\ e_fs (s_e s1) = e_fs (s_e s) /\
      (c_conn (s_c s) = true -> s1 = s) /\ mail_transaction m s1 = (x, s') /\ (exists t1, s_t s1 = s_t s ++ t1 /\ t = t1 ++ t2) /\
      s_t s' = s_t s1 ++ t2 /\ talk t2 (exchanges t2))).
Proof.
  intros m s x s' t H T. destruct (send_split _ _ _ _ H) as (s1 & t1 & T1 & Cl & K & [[-> N]|(C1 & Cf & Fs & H2)]).
  - exists (exchanges t1), [], s1, []. assert (t = t1) by (rewrite T in T1; apply app_inv_head in T1; exact T1). subst t1.
    split; [|split; [reflexivity|left; split; [reflexivity|exact N]]]. split; [symmetry; apply app_nil_r|]. split; [exact Cl|].
    intros E. destruct (K E) as [-> _]. reflexivity.
  - destruct (transaction_quiet _ _ _ _ H2) as (t2 & T2 & Q). exists (exchanges t1), (exchanges t2), s1, t2.
    assert (t = t1 ++ t2) by (rewrite T2, T1, <- app_assoc in T; apply app_inv_head in T; symmetry; exact T). subst t.
    split; [|split; [reflexivity|right]].
    + split; [apply exchanges_app; exact Q|]. split; [exact Cl|]. intros E. destruct (K E) as [-> _]. reflexivity.
    + repeat split; try assumption; [intros E; apply K, E|exists t1; auto].
Qed.

Lemma deaf_teardown : forall s, exists t, s_t (teardown s) = s_t s ++ t /\ Forall deaf t.
Proof.
  intros s. unfold teardown. destruct (c_kind (s_c s)); cbn [s_t]; (eexists; split; [reflexivity|]);
  destruct (c_sock (s_c s) =? 0); destruct (c_ctx (s_c s)), (c_bio (s_c s)); repeat constructor.
Qed.

Lemma odd_parts : forall t1 t2, standard (t1 ++ t2) -> nonstandard t2 -> False.
Proof. intros t1 t2 S N. exact (standard_nonstandard _ S (nonstandard_r t1 t2 N)). Qed.

(** ** Success *)
Lemma send_success : forall m s s' t, sendMail m s = (Done 0, s') -> s_t s' = s_t s ++ t -> standard t -> fields_written t ->
  exists conn mail, phases (c_conn (s_c s)) t conn mail /\ success m (e_fs (s_e s)) (c_batch (s_c s)) mail.
Proof.
  intros m s s' t H T S W. destruct (send_phases _ _ _ _ _ H T) as (conn & mail & s1 & t2 & P & -> & [[_ N]|(C1 & Cf & Fs & K & H2 & (t1 & T1 & E) & T2 & Q)]); [congruence|].
  exists conn, (exchanges t2). split; [exact P|].
  destruct (transaction_done _ _ _ H2) as [(t2' & E2 & O)|(dlg & s2 & Sc & R & _ & E2)].
  { exfalso. rewrite T2 in E2. apply app_inv_head in E2. subst t2'. apply (not_odd t S W). subst t. apply odd_r, O. }
  assert (B : c_batch (s_c s1) = c_batch (s_c s)) by (unfold config in Cf; congruence).
  rewrite Fs, B in Sc. destruct R as (_ & t3 & T3 & D3).
  assert (X : exchanges t2 = dlg).
  { rewrite B in E2. destruct (c_batch (s_c s)).
    - subst s2. rewrite T3 in T2. apply app_inv_head in T2. subst t3. exact (talk_exchanges _ _ D3).
    - subst s'. destruct (deaf_teardown s2) as (tq & Tq & Dq). rewrite Tq, T3, <- app_assoc in T2. apply app_inv_head in T2. subst t2.
      rewrite (exchanges_app _ _ [] (talk_deaf _ Dq)), (talk_exchanges _ _ D3). apply app_nil_r. }
  rewrite X. exact Sc.
Qed.

(** ** The end of data was answered 250 *)
Lemma recipients_config : forall m s x s', setMailRecipients m s = (x, s') -> config (s_c s') = config (s_c s).
Proof.
  intros m s c s' H. assert (W : walk most (setMailRecipients m) s).
  { eapply (wset_recipients most most_base most_conn m (fun _ => None)); [intros; apply most_write|apply most_quit]. }
  destruct W as [W _]. rewrite H in W. exact (steps_config _ _ _ W).
Qed.
Lemma headers_config : forall m s x s', setMailHeaders m s = (x, s') -> config (s_c s') = config (s_c s).
Proof.
  intros m s c s' H. assert (W : walk most (setMailHeaders m) s).
  { eapply (wset_headers most most_base most_conn m (fun _ => None)); [intros; apply most_write|intros; exact I|apply most_quit]. }
  destruct W as [W _]. rewrite H in W. exact (steps_config _ _ _ W).
Qed.

Lemma transaction_end : forall m s s', mail_transaction m s = (Done 0, s') ->
  bad nonstandard s s' \/
  exists t before r, s_t s' = s_t s ++ t /\ answered "250" (END_line, r) /\
    exchanges t = before ++ (END_line, r) :: (if c_batch (s_c s) then [] else [(QUIT_line, [])]).
Proof.
  intros m s s' H. unfold mail_transaction in H.
  apply bind_done in H as (r & s1 & H1 & H).
  destruct (r =? 0) eqn:Er; cbn [negb] in H; [|apply ret_done in H as [<- _]; discriminate Er]. apply Z.eqb_eq in Er. subst r.
  apply bind_done in H as (h & s2 & H2 & H).
  destruct (h =? 0) eqn:Eh; cbn [negb] in H; [|apply ret_done in H as [<- _]; discriminate Eh]. apply Z.eqb_eq in Eh. subst h.
  apply bind_done in H as (b & s3 & H3 & H).
  destruct (b =? 0) eqn:Eb; cbn [negb] in H; [|apply ret_done in H as [<- _]; discriminate Eb]. apply Z.eqb_eq in Eb. subst b.
  unfold bind at 1, getc in H. apply bind_done in H as (u & s4 & H4 & H). apply ret_done in H as [_ ->].
  assert (X12 := ext_trans _ _ _ (recipients_ext _ _ _ _ H1) (headers_ext _ _ _ _ H2)).
  assert (Bt : c_batch (s_c s2) = c_batch (s_c s)).
  { apply recipients_config in H1. apply headers_config in H2. unfold config in *. congruence. }
  destruct (body_done _ _ _ H3) as [B3|(r2 & body & Hb & A5 & R3)].
  { left. apply (bad_r _ _ _ _ closed_nonstandard X12). apply (bad_l _ _ _ _ closed_nonstandard B3).
    destruct (c_batch (s_c s3)); [apply ret_done in H4 as [_ ->]; apply ext_refl|eapply cleanup_ext, H4]. }
  right. rewrite Bt in R3. destruct R3 as (CR & t3 & T3 & D3).
  assert (B3 : c_batch (s_c s3) = c_batch (s_c s)) by (clear -CR Bt; core_facts CR; congruence).
  assert (X : exists tq, s_t s4 = s_t s3 ++ tq /\ Forall deaf tq).
  { rewrite B3 in H4. destruct (c_batch (s_c s)).
    - apply ret_done in H4 as [_ ->]. exists []. rewrite app_nil_r. auto.
    - rewrite cleanup_plain in H4 by (rewrite B3; reflexivity). inversion H4. apply deaf_teardown. }
  destruct X as (tq & Tq & Dq). destruct X12 as [t0 T0].
  exists (t0 ++ t3 ++ tq), (exchanges t0 ++ silent (map cstr (body_chunks body))), r2.
  split; [rewrite Tq, T3, T0, <- !app_assoc; reflexivity|]. split; [exact A5|].
  assert (D : talk (t3 ++ tq) (silent (map cstr (body_chunks body)) ++ (END_line, r2) :: (if c_batch (s_c s) then [] else [(QUIT_line, [])]))).
  { rewrite <- (app_nil_r (silent _ ++ _)). exact (talk_app _ _ _ _ D3 (talk_deaf _ Dq)). }
  rewrite (exchanges_app _ _ _ D), <- app_assoc. reflexivity.
Qed.

Lemma send_end : forall m s s' t, sendMail m s = (Done 0, s') -> s_t s' = s_t s ++ t -> standard t ->
  exists before r, exchanges t = before ++ (END_line, r) :: (if c_batch (s_c s) then [] else [(QUIT_line, [])]) /\
    answered "250" (END_line, r).
Proof.
  intros m s s' t H T S.
  destruct (send_phases _ _ _ _ _ H T) as (conn & mail & s1 & t2 & (P & _) & -> & [[_ N]|(C1 & Cf & Fs & K & H2 & (t1 & T1 & E) & T2 & Q)]); [congruence|].
  assert (B : c_batch (s_c s1) = c_batch (s_c s)) by (unfold config in Cf; congruence).
  destruct (transaction_end _ _ _ H2) as [(t2' & E2 & O)|(t2' & before & r & E2 & A & X)].
  - exfalso. rewrite T2 in E2. apply app_inv_head in E2. subst. exact (odd_parts _ _ S O).
  - rewrite T2 in E2. apply app_inv_head in E2. subst t2'. exists (conn ++ before), r. split; [|exact A].
    rewrite P, X, B, <- app_assoc. reflexivity.
Qed.

(** ** Refused recipients *)

Definition rcpt_label (m : message) (l : label) : Prop :=
  match l with
  | LConn => False
  | LSend d | LPuts d => starts_with (B "MAIL") d \/ starts_with (B "RCPT") d \/ d = QUIT
  | _ => True
  end.
Lemma cstr_lit : forall p s, ~ In NUL p -> cstr (p ++ s) = p ++ cstr s.
Proof. intros p s H. apply cstr_app_nonul. exact H. Qed.
Lemma recipients_lines : forall m s, walk (rcpt_label m) (setMailRecipients m) s.
Proof.
  intros m s. unfold setMailRecipients.
  assert (B0 : forall l, base l -> rcpt_label m l) by (intros [] H; try exact I; destruct H).
  assert (N0 : ~ rcpt_label m LConn) by (intros []).
  assert (Q : forall s, quit_ok (rcpt_label m) s) by (intros s0 _; split; right; right; reflexivity).
  assert (Mw : forall d, In d (mail_formats (m_from m)) -> may_write (rcpt_label m) (cstr d)).
  { intros d [<-|[<-|[<-|[]]]]; split; left; eexists; reflexivity. }
  apply (wbind _ N0); [apply Q|apply (wmail_from _ B0 N0); [exact Mw|apply Q]|].
  intros code s1 _. destruct (negb _); [apply walk_ret|]. apply (wrecipients _ B0 N0); [|apply Q].
  intros l a _ _. split; right; left; eexists; reflexivity.
Qed.

Lemma no_data_before : forall d, starts_with (B "MAIL") d \/ starts_with (B "RCPT") d \/ d = QUIT -> d <> DATA_line.
Proof. intros d [[r ->]|[[r ->]| ->]] H; discriminate H. Qed.
