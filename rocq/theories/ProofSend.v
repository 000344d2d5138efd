(** [sendMail] as a path, and general facts about it. *)

From Coq Require Import Ascii String List NArith ZArith Bool Lia ZifyBool ZifyNat ZifyN.
From Verif Require Import Base Lib ModelUtil ModelBase64 ModelAddress ModelAttachment
  ModelErrors ModelReply ModelMessage ModelState ModelClient ProofSteps ProofWalk ProofPhases ProofEstablish ProofLog.
Import ListNotations.
Open Scope Z_scope.

Definition bad_arrays (m : message) : Prop :=
  exists n, m_to m = ANull (S n) \/ m_cc m = ANull (S n) \/ m_atts m = ANull (S n).

(** Everything except marking the client connected. *)
Definition any_but_conn (m : message) (l : label) : Prop :=
  match l with LConn => False | LNull => bad_arrays m | _ => True end.
Definition any_label (m : message) (l : label) : Prop :=
  match l with LNull => bad_arrays m | _ => True end.

Lemma any_base : forall m l, base l -> any_but_conn m l.
Proof. intros m []; simpl; tauto. Qed.
Lemma any_weak : forall m l, any_but_conn m l -> any_label m l.
Proof. intros m []; simpl; tauto. Qed.
Lemma any_write : forall m d, may_write (any_but_conn m) d.
Proof. intros. split; exact I. Qed.

Lemma any_establish : forall m s, c_conn (s_c s) = false -> walk (any_but_conn m) establish s.
Proof.
  intros m s Cn. apply westablish; try exact I; try assumption.
  - apply any_base.
  - intros H. exact H.
  - intros. exact I.
  - intros. split; intros; exact I.
Qed.

Lemma any_transaction : forall m s, walk (any_but_conn m) (mail_transaction m) s.
Proof.
  intros m s. apply wtransaction with (fs := e_fs (s_e s)); try reflexivity.
  - apply any_base.
  - intros H. exact H.
  - intros d _. apply any_write.
  - intros n H. exists n. exact H.
Qed.

Lemma any_cleanup : forall m s, walk (any_but_conn m) cleanup s.
Proof. intros m s. apply wcleanup; [apply any_base|]. intros _. apply any_write. Qed.

Lemma sendMail_walk : forall m s, walk (any_label m) (sendMail m) s.
Proof.
  intros m s. unfold sendMail. apply walk_getc. apply walk_bind.
  - destruct (c_conn (s_c s)) eqn:Cn; [apply walk_ret|]. eapply walk_mono; [apply any_establish; assumption|apply any_weak].
  - intros r s1 _ _. destruct (negb _); [apply walk_ret|].
    apply walk_bind; [eapply walk_updc; [apply es_conn|exact I]|].
    intros _ s2 _ _. eapply walk_mono; [apply any_transaction|apply any_weak].
Qed.

(** ** Undefined behaviour *)

Lemma sendMail_fresh : forall m s, c_conn (s_c s) = false -> sendMail m s = sendMail m (fresh_log s).
Proof.
  intros m s Cn. unfold sendMail, bind, getc.
  change (c_conn (s_c (fresh_log s))) with (c_conn (s_c s)). rewrite Cn.
  rewrite establish_fresh. reflexivity.
Qed.

Lemma sendMail_good : forall m s, (c_conn (s_c s) = true -> good_log (s_c s)) ->
  (exists r, sendMail m s = (Blocked, r)) \/ good_log (s_c (snd (sendMail m s))).
Proof.
  intros m s H. right. destruct (c_conn (s_c s)) eqn:Cn.
  - eapply steps_good; [apply sendMail_walk|]. auto.
  - rewrite sendMail_fresh by assumption. eapply steps_good; [apply sendMail_walk|]. apply good_fresh.
Qed.

Lemma sendMail_stuck : forall m s u, (c_conn (s_c s) = true -> good_log (s_c s)) ->
  fst (sendMail m s) = Undef u ->
  stuck (any_label m) u (snd (sendMail m s)) /\
  u <> UB_NullDeref PLog /\ u <> UB_BufferOverflow BufLog.
Proof.
  intros m s u H E. destruct (sendMail_walk m s) as [_ W]. specialize (W u E). split; [exact W|].
  destruct (sendMail_good m s H) as [[r B]|G]; [rewrite B in E; discriminate E|].
  split; intros ->.
  - simpl in W. destruct G as (lg & L & _). congruence.
  - destruct W as (item & prefix & X).
    destruct (addLog_good item prefix _ G) as [Y|(lg & lg' & n & _ & _ & Y & _)]; rewrite Y in X; discriminate X.
Qed.

(** Destruction. *)
Lemma cleanup_good : forall s, (c_conn (s_c s) = true -> good_log (s_c s)) ->
  good_log (s_c s) \/ (c_conn (s_c s) = false /\ cleanup s = (Done tt, teardown s)).
Proof.
  intros s H. destruct (c_conn (s_c s)) eqn:Cn; [left; auto|right]. split; [reflexivity|].
  unfold cleanup, cleanup_fuel. rewrite cleanup_f_eq. unfold bind at 1, getc. rewrite Cn, andb_false_r.
  unfold bind at 1, ret. apply cleanup_tail_eq.
Qed.

Lemma cleanup_stuck : forall s u, (c_conn (s_c s) = true -> good_log (s_c s)) ->
  fst (cleanup s) = Undef u ->
  stuck base u (snd (cleanup s)) /\ u <> UB_NullDeref PLog /\ u <> UB_BufferOverflow BufLog.
Proof.
  intros s u H E. destruct (cleanup_good s H) as [G|[_ X]]; [|rewrite X in E; discriminate E].
  pose (P := fun l => base l \/ (exists d, l = LSend d) \/ (exists d, l = LPuts d)).
  assert (W : walk P cleanup s).
  { apply wcleanup; [intros l Hl; left; exact Hl|]. intros _. split; right; [left|right]; eexists; reflexivity. }
  destruct W as [S W]. specialize (W u E). assert (G' := steps_good _ _ _ S G).
  split; [|split].
  - destruct u; try exact W. destruct p; try exact W. destruct W as [W|[[d W]|[d W]]]; [exact W|discriminate W|discriminate W].
  - intros ->. simpl in W. destruct G' as (lg & L & _). congruence.
  - intros ->. destruct W as (item & prefix & X).
    destruct (addLog_good item prefix _ G') as [Y|(lg & lg' & n & _ & _ & Y & _)]; rewrite Y in X; discriminate X.
Qed.

(** ** Facts preserved by every step *)

(** The configuration. *)
Definition config (c : client) :=
  (c_kind c, c_server c, c_port c, c_batch c, c_timeout c, c_cred c, c_selfsigned c).
Lemma estep_config : forall l s s', estep l s s' -> config (s_c s') = config (s_c s).
Proof.
  intros l s s' H. destruct H; try reflexivity.
  - apply addLog_core in H as (H & _). core_facts H. unfold config. congruence.
  - unfold teardown. destruct (c_kind (s_c s)) eqn:K; unfold config; simpl; rewrite ?K; reflexivity.
Qed.
Lemma steps_config : forall P s s', steps P s s' -> config (s_c s') = config (s_c s).
Proof. intros P s s' H. induction H; [reflexivity|]. rewrite IHsteps. eapply estep_config; eauto. Qed.

(** The socket comes from socket() or was never opened. *)
Definition sock_ok (c : client) (t : list event) : Prop :=
  c_sock c = 0 \/ c_sock c = -1 \/ exists n, c_sock c = Z.of_N n /\ In (EvSocket (SkFd n)) t.
(** The last response was received. *)
Definition resp_ok (c : client) (t : list event) : Prop :=
  forall r x, c_resp c = Some r -> In x r -> In x (received t).

Lemma sock_ok_app : forall c t t', sock_ok c t -> sock_ok c (t ++ t').
Proof. intros c t t' [H|[H|(n & H & I)]]; unfold sock_ok; auto. right. right. exists n. split; [assumption|]. apply in_or_app. auto. Qed.
Lemma resp_ok_app : forall c t t', resp_ok c t -> resp_ok c (t ++ t').
Proof. intros c t t' H r x Hr Hx. rewrite received_app. apply in_or_app. left. eapply H; eauto. Qed.

Lemma estep_sock_resp : forall l s s', estep l s s' ->
  (sock_ok (s_c s) (s_t s) -> sock_ok (s_c s') (s_t s')) /\
  (resp_ok (s_c s) (s_t s) -> resp_ok (s_c s') (s_t s')).
Proof.
  intros l s s' H. destruct (estep_trace _ _ _ H) as [t' T].
  assert (Same : c_sock (s_c s') = c_sock (s_c s) -> c_resp (s_c s') = c_resp (s_c s) ->
    (sock_ok (s_c s) (s_t s) -> sock_ok (s_c s') (s_t s')) /\ (resp_ok (s_c s) (s_t s) -> resp_ok (s_c s') (s_t s'))).
  { intros E1 E2. rewrite T. split; intros X.
    - apply (sock_ok_app _ _ t') in X. unfold sock_ok in *. rewrite E1. exact X.
    - apply (resp_ok_app _ _ t') in X. unfold resp_ok in *. rewrite E2. exact X. }
  destruct H; try (apply Same; reflexivity).
  - apply addLog_core in H as (H & _ & _ & R). core_facts H. apply Same; assumption.
  - split; intros X; [exact X|]. intros r' x Hr Hx. simpl in *. inversion Hr; subst. apply H. assumption.
  - split; intros X.
    + destruct r as [n|er]; simpl; [right; right; exists n|right; left; reflexivity].
      split; [reflexivity|]. apply in_or_app. right. left. reflexivity.
    + apply (resp_ok_app _ _ [EvSocket r]) in X. exact X.
  - split; intros X.
    + left. unfold teardown. destruct (c_kind (s_c s)); reflexivity.
    + rewrite T. apply (resp_ok_app _ _ t') in X. unfold teardown. destruct (c_kind (s_c s)); exact X.
Qed.
Lemma steps_sock_resp : forall P s s', steps P s s' ->
  (sock_ok (s_c s) (s_t s) -> sock_ok (s_c s') (s_t s')) /\
  (resp_ok (s_c s) (s_t s) -> resp_ok (s_c s') (s_t s')).
Proof.
  intros P s s' H. induction H; [tauto|]. apply estep_sock_resp in H. tauto.
Qed.
