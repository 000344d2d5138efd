(** What goes to which channel: phases of [sendMail] around the TLS
    negotiation. *)

From Coq Require Import Ascii String List NArith ZArith Bool Lia ZifyBool ZifyNat ZifyN.
From Verif Require Import Base Lib ModelUtil ModelBase64 ModelAddress ModelAttachment
  ModelErrors ModelReply ModelMessage ModelState ModelClient ModelWorld
  ProofSteps ProofWalk ProofPhases ProofEstablish ProofLog ProofSend ProofWorld SpecMime SpecTls ProofMime.
Import ListNotations.
Open Scope Z_scope.

(** ** Phases *)

Lemma bind_assoc : forall {A C D} (m : M A) (k : A -> M C) (h : C -> M D) s,
  bind (bind m k) h s = bind m (fun a => bind (k a) h) s.
Proof. intros. unfold bind. destruct (m s) as [o s1]. destruct o; reflexivity. Qed.

(** A path in three phases; the second ends the run or makes [K] true; the
    third is described by [R]. *)
Definition phased {A} (P1 P2 : label -> Prop) (K : st -> Prop) (R : st -> st -> Prop) (m : M A) (s : st) : Prop :=
  exists s1, steps P1 s s1 /\
    (snd (m s) = s1 \/
     exists s2, steps P2 s1 s2 /\ (snd (m s) = s2 \/ (K s2 /\ R s2 (snd (m s))))).

Section Phased.
Context (P1 P2 : label -> Prop) (K : st -> Prop) (R : st -> st -> Prop).

Lemma phased_one : forall {A} (m : M A) s, walk P1 m s -> phased P1 P2 K R m s.
Proof. intros A m s [H _]. eexists. split; [exact H|]. left. reflexivity. Qed.

Lemma phased_bind : forall {A C} (m : M A) (k : A -> M C) s, walk P1 m s ->
  (forall a s1, m s = (Done a, s1) -> steps P1 s s1 -> phased P1 P2 K R (k a) s1) -> phased P1 P2 K R (bind m k) s.
Proof.
  intros A C m k s [H _] G. unfold phased, bind in *. destruct (m s) as [o s1]. cbn [snd] in H.
  destruct o; try (exists s1; split; [exact H|left; reflexivity]).
  destruct (G a s1 eq_refl H) as (s2 & S2 & Q). exists s2. split; [eapply steps_trans; eauto|exact Q].
Qed.
Lemma phased_getc : forall {A} (k : client -> M A) s, phased P1 P2 K R (k (s_c s)) s -> phased P1 P2 K R (bind getc k) s.
Proof. intros A k s H. exact H. Qed.

(** The second phase. *)
Lemma phased_two : forall {A C} (m : M A) (k : A -> M C) s, walk P2 m s ->
  (forall a s1, m s = (Done a, s1) -> steps P2 s s1 ->
     snd (k a s1) = s1 \/ (K s1 /\ R s1 (snd (k a s1)))) -> phased P1 P2 K R (bind m k) s.
Proof.
  intros A C m k s [H _] G. exists s. split; [apply st_refl|]. right. unfold bind in *.
  destruct (m s) as [o s1]. cbn [snd] in H. exists s1. split; [exact H|].
  destruct o; try (left; reflexivity). apply (G a s1 eq_refl H).
Qed.
End Phased.

(** ** The rest of sendMail *)

Definition finish (m : message) (r : Z) : M Z :=
  if negb (r =? 0) then ret r else updc (set_conn true);; mail_transaction m.

Lemma sendMail_new : forall m s, c_conn (s_c s) = false -> sendMail m s = (r <- establish;; finish m r) s.
Proof. intros m s C. unfold sendMail. unfold bind at 1, getc. rewrite C. reflexivity. Qed.
Lemma sendMail_old : forall m s, c_conn (s_c s) = true ->
  sendMail m s = (updc (set_conn true);; mail_transaction m) s.
Proof. intros m s C. unfold sendMail. unfold bind at 1, getc. rewrite C. reflexivity. Qed.

(** Steps over an established TLS session. *)
Definition secure_nc (l : label) : Prop :=
  base l \/ l = LAuth \/ l = LNull \/ (exists d, l = LPuts d) \/ (exists d, l = LSend d).
(** Steps of the negotiation. *)
Definition negotiating (l : label) : Prop := base l \/ l = LTls.

Lemma secure_nc_base : forall l, base l -> secure_nc l.
Proof. intros l H. left. exact H. Qed.
Lemma secure_nc_conn : ~ secure_nc LConn.
Proof. intros [H|[H|[H|[[d H]|[d H]]]]]; try discriminate H. exact H. Qed.
Lemma secure_nc_write : forall d, may_write secure_nc d.
Proof. intros d. split; right; right; right; [right|left]; eexists; reflexivity. Qed.
Lemma negotiating_base : forall l, base l -> negotiating l.
Proof. intros l H. left. exact H. Qed.
Lemma negotiating_conn : ~ negotiating LConn.
Proof. intros [H|H]; [exact H|discriminate H]. Qed.

Lemma secure_transaction : forall m s, walk secure_nc (mail_transaction m) s.
Proof.
  intros m s. apply wtransaction with (fs := e_fs (s_e s)); try reflexivity.
  - apply secure_nc_base.
  - apply secure_nc_conn.
  - intros d _. apply secure_nc_write.
  - intros n _. right. right. left. reflexivity.
Qed.
(** The client is marked connected once, with its session in place. *)
Definition secured (s s' : st) : Prop :=
  exists s1, steps secure_nc s s1 /\
    (s' = s1 \/ (c_bio (s_c s1) <> None /\ steps secure_nc (c_state s1 (set_conn true)) s')).

Lemma secured_finish : forall m r s, c_bio (s_c s) <> None -> secured s (snd (finish m r s)).
Proof.
  intros m r s B. exists s. split; [apply st_refl|]. unfold finish. destruct (negb _); [left; reflexivity|].
  right. split; [assumption|]. unfold bind, updc. apply (secure_transaction m).
Qed.
Lemma secured_old : forall m s, c_conn (s_c s) = true -> steps secure_nc (c_state s (set_conn true)) (snd (sendMail m s)).
Proof. intros m s C. rewrite sendMail_old by assumption. unfold bind, updc. apply (secure_transaction m). Qed.

(** The forced client up to its TLS session. *)
Definition opening (l : label) : Prop := base l \/ l = LNewLog \/ l = LSocket \/ l = LNet.
Lemma opening_base : forall l, base l -> opening l.
Proof. intros l H. left. exact H. Qed.
Lemma opening_conn : ~ opening LConn.
Proof. intros [H|[H|[H|H]]]; [exact H|discriminate H|discriminate H|discriminate H]. Qed.

(** An accepted session is in place. *)
Definition session (c0 : client) (s : st) : Prop :=
  c_conn (s_c s) = false /\ c_kind (s_c s) = c_kind c0 /\ c_rawptr (s_c s) = c_rawptr c0 /\ c_keep (s_c s) = c_keep c0 /\
  exists b, c_bio (s_c s) = Some b /\ accepted (c_selfsigned c0) (bio_id b) (s_t s).

Lemma secure_tail_walk : forall s, c_kind (s_c s) <> KPlain -> c_bio (s_c s) <> None -> c_conn (s_c s) = false ->
  walk secure_nc secure_tail s.
Proof.
  intros s K B C. apply wsecure_tail; try assumption.
  - apply secure_nc_base.
  - apply secure_nc_conn.
  - right. left. reflexivity.
  - intros E. rewrite C, andb_false_r in E. discriminate E.
  - apply secure_nc_write.
  - intros. destruct (c_rawptr (s_c s)); apply secure_nc_write.
Qed.

Lemma secure_after : forall m e s, walk secure_nc e s -> c_bio (s_c s) <> None ->
  (forall s', e s = (Done 0, s') -> c_bio (s_c s') = c_bio (s_c s)) -> secured s (snd ((r <- e;; finish m r) s)).
Proof.
  intros m e s [W _] B H. unfold bind. destruct (e s) as [o s1] eqn:E. cbn [snd] in W.
  destruct o; try (exists s1; split; [exact W|left; reflexivity]).
  destruct (a =? 0) eqn:Z.
  - replace a with 0 in * by lia. specialize (H s1 eq_refl).
    exists s1. split; [exact W|]. right. split; [congruence|]. apply (secure_transaction m).
  - exists s1. split; [exact W|]. left. unfold finish. rewrite Z. reflexivity.
Qed.

Lemma secure_tail_bio : forall s s', secure_tail s = (Done 0, s') -> c_bio (s_c s') = c_bio (s_c s).
Proof.
  intros s s' H. unfold secure_tail in H. apply bind_done in H as (i & s1 & H1 & H).
  unfold STATUS_CODE_REQUESTED_MAIL_ACTION_OK_OR_COMPLETED in H.
  destruct (i =? 250) eqn:E; cbn [negb] in H.
  - apply secure_ident_core in H1; [|lia]. apply core_a_fields in H1. apply auth_if_core in H; [|lia]. core_facts H.
    intuition congruence.
  - apply ret_done in H as [<- ->]. apply secure_ident_core in H1; [|lia]. apply core_a_fields in H1. intuition congruence.
Qed.
Lemma forced_tail_bio : forall s s', forced_tail s = (Done 0, s') -> c_bio (s_c s') = c_bio (s_c s).
Proof.
  intros s s' H. unfold forced_tail in H. apply bind_done in H as (i & s1 & H1 & H).
  apply greeting_tls_core in H1. core_facts H1.
  destruct (i =? _); cbn [negb] in H.
  - apply secure_tail_bio in H. congruence.
  - apply ret_done in H as [_ ->]. assumption.
Qed.

Lemma forced_phases : forall m s, c_kind (s_c s) = KForced -> c_conn (s_c s) = false ->
  phased opening negotiating (session (s_c s)) secured (sendMail m) s.
Proof.
  intros m s K C. unfold phased. rewrite sendMail_new by assumption.
  assert (X : (r <- establish;; finish m r) s = (r <- establishForced;; finish m r) s).
  { unfold establish. unfold bind at 1. unfold bind at 1. unfold getc. rewrite K. reflexivity. }
  rewrite X. clear X. change (phased opening negotiating (session (s_c s)) secured (r <- establishForced;; finish m r) s).
  unfold phased. unfold establishForced. rewrite bind_assoc.
  refine (phased_bind opening negotiating (session (s_c s)) secured initializeSession _ s _ _).
  { apply winitialize; [apply opening_base|right; left; reflexivity|right; right; left; reflexivity|right; right; right; reflexivity]. }
  intros r s1 H1 _. apply initialize_core in H1 as [C1 _]. apply core_s_fields in C1.
  destruct (r =? 0) eqn:R; cbn [negb].
  2:{ apply phased_one. unfold finish. replace (bind _ _) with (@ret Z r); [apply walk_ret|].
      unfold bind, ret. rewrite R. reflexivity. }
  unfold phased. rewrite bind_assoc.
  refine (phased_two opening negotiating (session (s_c s)) secured startTLSNegotiation _ s1 _ _).
  { apply wtls; [apply negotiating_base|apply negotiating_conn|right; reflexivity|].
    intros E. replace (c_conn (s_c s1)) with false in E by intuition congruence. rewrite andb_false_r in E. discriminate E. }
  intros t s2 H2 _. destruct (t =? 0) eqn:T; cbn [negb].
  2:{ left. unfold bind, ret, finish. rewrite T. reflexivity. }
  replace t with 0 in H2 by lia. apply tls_done in H2 as (C2 & _ & B2 & A2). apply core_t_fields in C2.
  right. split.
  - unfold session. repeat split; try (intuition congruence). eexists. split; [exact B2|].
    replace (c_selfsigned (s_c s)) with (c_selfsigned (s_c s1)) by intuition congruence. exact A2.
  - apply (secure_after m forced_tail); [apply wforced_tail; try (intuition congruence)| |].
    + apply secure_nc_base.
    + apply secure_nc_conn.
    + right. left. reflexivity.
    + intros E. replace (c_conn (s_c s2)) with false in E by intuition congruence. rewrite andb_false_r in E. discriminate E.
    + apply secure_nc_write.
    + intros. destruct (c_rawptr (s_c s2)); apply secure_nc_write.
    + congruence.
    + apply forced_tail_bio.
Qed.

(** ** The opportunistic client *)

(** The steps before and without TLS: EHLO, STARTTLS and the mail. *)
Definition clear_nc (fs : filesystem) (m : message) (l : label) : Prop :=
  base l \/ l = LNewLog \/ (l = LSocket \/ l = LNet) \/ l = LAuth \/ l = LUpgrade \/ l = LKeep \/ l = LNull \/
  exists d, (l = LSend d \/ l = LPuts d) /\ (d = EHLO \/ exists x, tx_line fs m x /\ d = cstr x).
Definition clear_any (fs : filesystem) (m : message) (l : label) : Prop := l = LConn \/ clear_nc fs m l.

Lemma clear_base : forall fs m l, base l -> clear_nc fs m l.
Proof. intros fs m l H. left. exact H. Qed.
Lemma clear_conn : forall fs m, ~ clear_nc fs m LConn.
Proof.
  intros fs m H. unfold clear_nc in H. simpl in H. intuition (try discriminate).
  destruct H0 as (d & [X|X] & _); discriminate X.
Qed.
Lemma clear_write : forall fs m x, tx_line fs m x -> may_write (clear_nc fs m) (cstr x).
Proof. intros fs m x H. split; do 7 right; exists (cstr x); (split; [auto|right; eauto]). Qed.
Lemma clear_ehlo : forall fs m, may_write (clear_nc fs m) EHLO.
Proof. intros fs m. split; do 7 right; exists EHLO; auto. Qed.
Ltac clear_lab := unfold clear_nc; tauto.

Lemma clear_finish : forall m r s, walk (clear_any (e_fs (s_e s)) m) (finish m r) s.
Proof.
  intros m r s. unfold finish. destruct (negb _); [apply walk_ret|]. apply walk_bind.
  - eapply walk_updc; [apply es_conn|]. left. reflexivity.
  - intros u s1 H1 _. inversion H1; subst. eapply walk_mono with (P := clear_nc (e_fs (s_e s)) m); [|right; assumption].
    apply wtransaction with (fs := e_fs (s_e s)); try reflexivity.
    + apply clear_base.
    + apply clear_conn.
    + apply clear_write.
    + intros. clear_lab.
Qed.

Lemma opp_phases : forall m s, c_kind (s_c s) = KOpp -> c_conn (s_c s) = false ->
  phased (clear_any (e_fs (s_e s)) m) negotiating (session (s_c s)) secured (sendMail m) s.
Proof.
  intros m s K C. unfold phased. rewrite sendMail_new by assumption.
  assert (X : (r <- establish;; finish m r) s = (r <- establishOpp;; finish m r) s).
  { unfold establish. unfold bind at 1. unfold bind at 1. unfold getc. rewrite K. reflexivity. }
  rewrite X. clear X.
  set (fs := e_fs (s_e s)). assert (F : e_fs (s_e s) = fs) by reflexivity. clearbody fs.
  change (phased (clear_any fs m) negotiating (session (s_c s)) secured (r <- establishOpp;; finish m r) s).
  assert (PB : forall l, base l -> clear_nc fs m l) by (apply clear_base).
  assert (PC : ~ clear_nc fs m LConn) by (apply clear_conn).
  assert (PW : forall l, clear_nc fs m l -> clear_any fs m l) by (intros l Hl; right; exact Hl).
  assert (Stop : forall r s1, e_fs (s_e s1) = fs ->
    phased (clear_any fs m) negotiating (session (s_c s)) secured (bind (ret r) (finish m)) s1).
  { intros r s1 F1. unfold phased. change (bind (ret r) (finish m) s1) with (finish m r s1).
    refine (phased_one _ _ _ _ (finish m r) s1 _). rewrite <- F1. apply clear_finish. }
  unfold phased, establishOpp. rewrite bind_assoc.
  refine (phased_bind _ _ _ _ initializeSession _ s _ _).
  { eapply walk_mono; [|exact PW]. apply winitialize; [apply PB|clear_lab|clear_lab|clear_lab]. }
  intros r s1 H1 S1. assert (F1 := steps_fs _ _ _ S1). rewrite F in F1.
  apply initialize_core in H1 as [C1 _]. apply core_s_fields in C1.
  destruct (r =? 0) eqn:R; cbn [negb]; [|apply Stop; assumption].
  unfold phased. rewrite bind_assoc.
  refine (phased_bind _ _ _ _ checkServerGreetings _ s1 _ _).
  { eapply walk_mono; [|exact PW]. apply wgreetings; apply PB. }
  intros g s2 H2 S2. assert (F2 := steps_fs _ _ _ S2). rewrite F1 in F2.
  apply greeting_core in H2. core_facts H2.
  assert (Q2 : quit_ok (clear_nc fs m) s2).
  { intros E. replace (c_conn (s_c s2)) with false in E by intuition congruence. rewrite andb_false_r in E. discriminate E. }
  destruct (g =? _); cbn [negb]; [|apply Stop; assumption].
  unfold phased. rewrite bind_assoc.
  refine (phased_bind _ _ _ _ sendServerIdentification _ s2 _ _).
  { eapply walk_mono; [|exact PW]. apply wident; auto.
    - clear_lab.
    - intros _. apply clear_ehlo.
    - intros _. apply clear_ehlo. }
  intros i s3 H3 S3. assert (F3 := steps_fs _ _ _ S3). rewrite F2 in F3.
  destruct (i =? _) eqn:I3; cbn [negb]; [|apply Stop; assumption].
  unfold STATUS_CODE_REQUESTED_MAIL_ACTION_OK_OR_COMPLETED in I3.
  apply ident_core in H3; [|lia]. apply core_a_fields in H3.
  unfold phased. rewrite bind_assoc.
  refine (phased_getc _ _ _ _ _ s3 _). unfold phased. rewrite bind_assoc.
  refine (phased_bind _ _ _ _ _ _ s3 _ _).
  { apply walk_lift. intros u Hu. destruct (starttls_undef _ _ Hu) as [-> [r' Hr]].
    exists r'. split; [assumption|]. rewrite Hr in Hu. exact Hu. }
  intros tls s3' H3' _. unfold lift in H3'. inversion H3'; subst s3'. clear H3'.
  assert (Cs3 : c_conn (s_c s3) = false) by intuition congruence.
  destruct tls.
  - unfold phased. rewrite bind_assoc. refine (phased_bind _ _ _ _ _ _ s3 _ _).
    { apply wlogc. intros. apply PW, PB. assumption. }
    intros u s4 H4 S4. destruct u. assert (F4 := steps_fs _ _ _ S4). rewrite F3 in F4.
    apply logc_core in H4 as [H4 _]. core_facts H4.
    unfold phased. rewrite bind_assoc. refine (phased_bind _ _ _ _ upgradeToSecureConnection _ s4 _ _).
    { eapply walk_mono; [|exact PW]. apply wupgrade; auto.
      - intuition congruence.
      - clear_lab.
      - intros E. rewrite CFconn0, Cs3, andb_false_r in E. discriminate E. }
    intros u s5 H5 S5. assert (F5 := steps_fs _ _ _ S5). rewrite F4 in F5.
    destruct (u =? _) eqn:U; cbn [negb]; [|apply Stop; assumption]. unfold STATUS_CODE_SERVICE_READY in U.
    apply upgrade_core in H5; [|lia]. core_facts H5.
    unfold phased. rewrite bind_assoc. refine (phased_two _ _ _ _ startTLSNegotiation _ s5 _ _).
    { apply wtls; [apply negotiating_base|apply negotiating_conn|right; reflexivity|].
      intros E. rewrite CFconn1, CFconn0, Cs3, andb_false_r in E. discriminate E. }
    intros t s6 H6 _. destruct (t =? 0) eqn:T; cbn [negb].
    2:{ left. unfold bind, ret, finish. rewrite T. reflexivity. }
    replace t with 0 in H6 by lia. apply tls_done in H6 as (C6 & _ & B6 & A6). apply core_t_fields in C6.
    right. split.
    + unfold session. repeat split; try (intuition congruence). eexists. split; [exact B6|].
      replace (c_selfsigned (s_c s)) with (c_selfsigned (s_c s5)) by intuition congruence. exact A6.
    + apply (secure_after m secure_tail); [apply secure_tail_walk; intuition congruence|congruence|apply secure_tail_bio].
  - unfold phased. rewrite bind_assoc. refine (phased_bind _ _ _ _ _ _ s3 _ _).
    { apply wlogc. intros. apply PW, PB. assumption. }
    intros u s4 H4 S4. destruct u. assert (F4 := steps_fs _ _ _ S4). rewrite F3 in F4.
    unfold phased. rewrite bind_assoc. refine (phased_bind _ _ _ _ _ _ s4 _ _).
    { eapply walk_updc; [apply es_keep|]. right. clear_lab. }
    intros u s5 H5 S5. inversion H5; subst. apply Stop. assumption.
Qed.

(** ** What is written *)

Definition writes_nothing (t : list event) : Prop :=
  forall ev, In ev t -> match ev with EvSend _ _ _ | EvPuts _ _ _ => False | _ => True end.
Definition no_handshake (t : list event) : Prop :=
  forall ev, In ev t -> match ev with EvHandshake _ _ => False | _ => True end.

Definition writing (l : label) : Prop :=
  match l with LSend _ | LPuts _ | LUpgrade => True | _ => False end.

Lemma in_snoc : forall {A} (x y : A) l, In x (l ++ [y]) -> In x l \/ x = y.
Proof. intros A x y l H. apply in_app_or in H as [H|[H|[]]]; auto. Qed.

(** The events of one step that is not a write. *)
Lemma estep_silent : forall l s s', estep l s s' -> ~ writing l -> exists t, s_t s' = s_t s ++ t /\ writes_nothing t.
Proof.
  intros l s s' H N.
  assert (E : forall ev, match ev with EvSend _ _ _ | EvPuts _ _ _ => False | _ => True end ->
    exists t, s_t s ++ [ev] = s_t s ++ t /\ writes_nothing t).
  { intros ev V. exists [ev]. split; [reflexivity|]. intros x [<-|[]]. exact V. }
  assert (Nil : exists t, s_t s = s_t s ++ t /\ writes_nothing t).
  { exists []. split; [symmetry; apply app_nil_r|]. intros x []. }
  destruct H; try exact Nil; try (exfalso; apply N; exact I); cbn [s_t ev_state c_state log_state] in *;
    try (apply E; exact I).
  - apply addLog_core in H as (_ & _ & -> & _). exact Nil.
  - apply E. destruct H; exact I.
  - unfold teardown. destruct (c_kind (s_c s)); cbn [s_t]; eexists; (split; [reflexivity|]);
      intros x Hx; repeat (apply in_app_or in Hx as [Hx|Hx]);
      repeat match type of Hx with In _ (match ?y with _ => _ end) => destruct y end;
      try destruct Hx as [<-|[]]; try exact I; try destruct Hx.
  - apply E. destruct H; exact I.
  - apply E. destruct H; exact I.
Qed.

Lemma steps_silent : forall (P : label -> Prop) s s', (forall l, P l -> ~ writing l) -> steps P s s' ->
  exists t, s_t s' = s_t s ++ t /\ writes_nothing t.
Proof.
  intros P s s' N H. induction H.
  - exists []. split; [symmetry; apply app_nil_r|]. intros x [].
  - destruct (estep_silent _ _ _ H (N _ H0)) as (t1 & E1 & W1). destruct IHsteps as (t2 & E2 & W2).
    exists (t1 ++ t2). rewrite E2, E1, <- app_assoc. split; [reflexivity|].
    intros x Hx. apply in_app_or in Hx as [Hx|Hx]; [apply W1|apply W2]; exact Hx.
Qed.

Lemma opening_silent : forall l, opening l -> ~ writing l.
Proof. intros l [H|[-> |[-> | ->]]] W; [destruct l; auto|destruct W|destruct W|destruct W]. Qed.
Lemma negotiating_silent : forall l, negotiating l -> ~ writing l.
Proof. intros l [H| ->] W; [destruct l; auto|destruct W]. Qed.

(** Handshakes happen only during a negotiation. *)
Lemma estep_no_handshake : forall l s s', estep l s s' -> l <> LTls -> exists t, s_t s' = s_t s ++ t /\ no_handshake t.
Proof.
  intros l s s' H N.
  assert (E : forall ev, match ev with EvHandshake _ _ => False | _ => True end ->
    exists t, s_t s ++ [ev] = s_t s ++ t /\ no_handshake t).
  { intros ev V. exists [ev]. split; [reflexivity|]. intros x [<-|[]]. exact V. }
  assert (Nil : exists t, s_t s = s_t s ++ t /\ no_handshake t).
  { exists []. split; [symmetry; apply app_nil_r|]. intros x []. }
  destruct H; try exact Nil; try (exfalso; apply N; reflexivity); cbn [s_t ev_state c_state log_state] in *;
    try (apply E; exact I).
  - apply addLog_core in H as (_ & _ & -> & _). exact Nil.
  - apply E. destruct H; exact I.
  - unfold teardown. destruct (c_kind (s_c s)); cbn [s_t]; eexists; (split; [reflexivity|]);
      intros x Hx; repeat (apply in_app_or in Hx as [Hx|Hx]);
      repeat match type of Hx with In _ (match ?y with _ => _ end) => destruct y end;
      try destruct Hx as [<-|[]]; try exact I; try destruct Hx.
  - apply E. destruct H; exact I.
Qed.
Lemma steps_no_handshake : forall (P : label -> Prop) s s', ~ P LTls -> steps P s s' -> exists t, s_t s' = s_t s ++ t /\ no_handshake t.
Proof.
  intros P s s' N H. induction H.
  - exists []. split; [symmetry; apply app_nil_r|]. intros x [].
  - destruct (estep_no_handshake _ _ _ H) as (t1 & E1 & W1); [intros ->; contradiction|]. destruct IHsteps as (t2 & E2 & W2).
    exists (t1 ++ t2). rewrite E2, E1, <- app_assoc. split; [reflexivity|].
    intros x Hx. apply in_app_or in Hx as [Hx|Hx]; [apply W1|apply W2]; exact Hx.
Qed.

(** Over an accepted session: writes go to it, or to descriptor 0 after it was
    torn down. *)
Definition only_secure (ok : nat -> list event -> Prop) (t0 t : list event) : Prop :=
  (forall t1 fd d r t2, t = t1 ++ EvSend fd d r :: t2 -> fd = 0 /\ exists b, In (EvBioFree b) t1) /\
  (forall t1 b d r t2, t = t1 ++ EvPuts b d r :: t2 -> ok b (t0 ++ t1)).

Lemma split_snoc : forall {A} (t : list A) e t1 x t2, t ++ [e] = t1 ++ x :: t2 ->
  (t2 = [] /\ x = e /\ t1 = t) \/ exists t2', t2 = t2' ++ [e] /\ t = t1 ++ x :: t2'.
Proof.
  intros A t e t1 x t2 H. destruct (exists_last (l := t1 ++ x :: t2)) as (l & y & E).
  { destruct t1; discriminate. }
  destruct t2 as [|z t2'] using rev_ind.
  - left. apply app_inj_tail in H as [-> ->]. auto.
  - right. exists t2'. rewrite app_comm_cons, app_assoc in H. apply app_inj_tail in H as [-> ->]. auto.
Qed.

Lemma only_secure_app : forall ok t0 t t', only_secure ok t0 t -> writes_nothing t' -> only_secure ok t0 (t ++ t').
Proof.
  intros ok t0 t t'. induction t' as [|e t' IH] using rev_ind; intros H W; [rewrite app_nil_r; exact H|].
  assert (IH' : only_secure ok t0 (t ++ t')).
  { apply IH; [exact H|]. intros x Hx. apply W. apply in_or_app. auto. }
  assert (We : match e with EvSend _ _ _ | EvPuts _ _ _ => False | _ => True end).
  { apply W. apply in_or_app. right. left. reflexivity. }
  rewrite app_assoc. destruct IH' as [I1 I2]. split.
  - intros t1 fd d r t2 E. apply split_snoc in E as [(-> & <- & _)|(t2' & -> & E)]; [destruct We|eauto].
  - intros t1 b d r t2 E. apply split_snoc in E as [(-> & <- & _)|(t2' & -> & E)]; [destruct We|eauto].
Qed.

Definition sealed (ok : nat -> list event -> Prop) (t0 : list event) (s : st) : Prop :=
  c_kind (s_c s) <> KPlain /\ c_rawptr (s_c s) = false /\ c_keep (s_c s) = false /\
  exists t, s_t s = t0 ++ t /\ only_secure ok t0 t /\
    ((exists b, c_bio (s_c s) = Some b /\ ok (bio_id b) (s_t s)) \/
     (c_bio (s_c s) = None /\ c_sock (s_c s) = 0 /\ c_conn (s_c s) = false /\ exists b, In (EvBioFree b) t)).

Lemma estep_sealed : forall (ok : nat -> list event -> Prop) t0 l s s', (forall b t t', ok b t -> ok b (t ++ t')) ->
  estep l s s' -> secure_nc l -> sealed ok t0 s -> sealed ok t0 s'.
Proof.
  intros ok t0 l s s' Mono H S (K & R & Kp & t & T & O & D).
  assert (Same : forall t', s_t s' = s_t s ++ t' -> only_secure ok t0 (t ++ t') ->
    c_kind (s_c s') = c_kind (s_c s) -> c_rawptr (s_c s') = c_rawptr (s_c s) -> c_keep (s_c s') = c_keep (s_c s) ->
    c_bio (s_c s') = c_bio (s_c s) -> c_sock (s_c s') = c_sock (s_c s) -> c_conn (s_c s') = c_conn (s_c s) -> sealed ok t0 s').
  { intros t' T' O' E1 E2 E3 E4 E5 E6. unfold sealed. rewrite E1, E2, E3, E4, E5, E6. split; [assumption|]. split; [assumption|].
    split; [assumption|]. exists (t ++ t'). rewrite T', T, app_assoc. split; [reflexivity|]. split; [assumption|].
    destruct D as [(b & B1 & B2)|(B1 & B2 & B3 & b & B4)].
    - left. exists b. split; [assumption|]. rewrite <- T. apply Mono. assumption.
    - right. repeat split; try assumption. exists b. apply in_or_app. auto. }
  assert (Quiet : ~ writing l -> 
    c_kind (s_c s') = c_kind (s_c s) -> c_rawptr (s_c s') = c_rawptr (s_c s) -> c_keep (s_c s') = c_keep (s_c s) ->
    c_bio (s_c s') = c_bio (s_c s) -> c_sock (s_c s') = c_sock (s_c s) -> c_conn (s_c s') = c_conn (s_c s) -> sealed ok t0 s').
  { intros N. destruct (estep_silent _ _ _ H N) as (t' & T' & W'). intros. eapply Same; eauto. apply only_secure_app; assumption. }
  destruct H; try (apply Quiet; [solve [intros []]|reflexivity..]).
  - apply addLog_core in H as (H & _). core_facts H. apply Quiet; [intros []|assumption..].
  - destruct S as [[]|[S|[S|[[? S]|[? S]]]]]; discriminate S.
  - destruct S as [[]|[S|[S|[[? S]|[? S]]]]]; discriminate S.
  - (* teardown *)
    destruct (estep_silent LClose s (teardown s) (es_close s) ltac:(intros [])) as (t' & T' & W').
    unfold sealed. split; [unfold teardown; destruct (c_kind (s_c s)) eqn:X; [congruence|simpl; congruence|simpl; congruence]|].
    split; [unfold teardown; destruct (c_kind (s_c s)); exact R|].
    split; [unfold teardown; destruct (c_kind (s_c s)); exact Kp|].
    exists (t ++ t'). rewrite T', T, app_assoc. split; [reflexivity|]. split; [apply only_secure_app; assumption|].
    right. split; [unfold teardown; destruct (c_kind (s_c s)) eqn:X; [congruence|reflexivity|reflexivity]|].
    split; [unfold teardown; destruct (c_kind (s_c s)); reflexivity|].
    split; [unfold teardown; destruct (c_kind (s_c s)); reflexivity|].
    destruct D as [(b & B1 & B2)|(B1 & B2 & B3 & b & B4)].
    + exists (bio_id b). apply in_or_app. right.
      assert (X : In (EvBioFree (bio_id b)) (s_t (teardown s))).
      { unfold teardown. destruct (c_kind (s_c s)) eqn:X; [congruence| |]; cbn [s_t]; rewrite B1;
          apply in_or_app; right; apply in_or_app; right; left; reflexivity. }
      rewrite T' in X. unfold teardown in T'. destruct (c_kind (s_c s)) eqn:Y; [congruence| |];
        cbn [s_t] in T'; apply app_inv_head in T'; rewrite <- T', B1;
        apply in_or_app; right; left; reflexivity.
    + exists b. apply in_or_app. auto.
  - (* send *)
    destruct H as [H|[H|H]]; [congruence|congruence|].
    destruct D as [(b & B1 & B2)|(B1 & B2 & B3 & b & B4)]; [congruence|].
    apply (Same [EvSend (c_sock (s_c s)) d r]); [reflexivity| |reflexivity..].
    destruct O as [O1 O2]. split.
    + intros t1 fd d' r' t2 E. apply split_snoc in E as [(-> & X & ->)|(t2' & -> & E)]; [|eauto].
      inversion X; subst. eauto.
    + intros t1 b' d' r' t2 E. apply split_snoc in E as [(-> & X & ->)|(t2' & -> & E)]; [discriminate X|eauto].
  - destruct S as [[]|[S|[S|[[? S]|[? S]]]]]; discriminate S.
  - (* puts *)
    destruct D as [(b' & B1 & B2)|(B1 & B2 & _)]; [|congruence].
    assert (b' = b) by congruence. subst b'.
    apply (Same [EvPuts (bio_id b) d r]); [reflexivity| |reflexivity..].
    destruct O as [O1 O2]. split.
    + intros t1 fd d' r' t2 E. apply split_snoc in E as [(-> & X & ->)|(t2' & -> & E)]; [discriminate X|eauto].
    + intros t1 b' d' r' t2 E. apply split_snoc in E as [(-> & X & ->)|(t2' & -> & E)]; [|eauto].
      inversion X; subst. rewrite <- T. exact B2.
  - destruct S as [[]|[S|[S|[[? S]|[? S]]]]]; discriminate S.
  - destruct S as [[]|[S|[S|[[? S]|[? S]]]]]; discriminate S.
  - destruct S as [[]|[S|[S|[[? S]|[? S]]]]]; discriminate S.
Qed.
Lemma steps_sealed : forall (ok : nat -> list event -> Prop) t0 s s', (forall b t t', ok b t -> ok b (t ++ t')) ->
  steps secure_nc s s' -> sealed ok t0 s -> sealed ok t0 s'.
Proof. intros ok t0 s s' Mono H. induction H; auto. intros. apply IHsteps. eapply estep_sealed; eauto. Qed.

(** ** Forced clients in a program *)

Lemma steps_conn_off : forall (P : label -> Prop) s s', ~ P LConn -> steps P s s' -> c_conn (s_c s) = false -> c_conn (s_c s') = false.
Proof.
  intros P s s' N H. induction H; auto. intros C. apply IHsteps. destruct H; try exact C.
  - apply addLog_core in H as (H & _). core_facts H. congruence.
  - contradiction.
  - unfold teardown. destruct (c_kind (s_c s)); reflexivity.
Qed.
Lemma steps_modes : forall (P : label -> Prop) s s', ~ P LKeep -> steps P s s' ->
  c_keep (s_c s') = c_keep (s_c s) /\ c_rawptr (s_c s') = c_rawptr (s_c s).
Proof.
  intros P s s' N H. induction H; auto. destruct IHsteps as [-> ->]. destruct H; auto.
  - apply addLog_core in H as (H & _). core_facts H. split; congruence.
  - unfold teardown. destruct (c_kind (s_c s)); split; reflexivity.
  - contradiction.
Qed.
Lemma opening_keep : ~ opening LKeep.
Proof. intros [H|[H|[H|H]]]; [exact H|discriminate H|discriminate H|discriminate H]. Qed.
Lemma negotiating_keep : ~ negotiating LKeep.
Proof. intros [H|H]; [exact H|discriminate H]. Qed.

Lemma verified_app : forall A b t t', verified A b t -> verified A b (t ++ t').
Proof.
  intros A b t t' (H1 & H2 & r & h & H3 & H4). repeat split; try (apply in_or_app; auto; fail).
  exists r, h. split; [apply in_or_app; auto|assumption].
Qed.
Lemma accepted_verified : forall (A : Prop) self b t, (self = true -> A) -> accepted self b t -> verified A b t.
Proof.
  intros A self b t HA (H1 & H2 & r & h & H3 & H4). repeat split; try assumption. exists r, h. split; [assumption|].
  destruct H4 as [->|[-> H4]]; auto.
Qed.

Definition forced_ok (A : Prop) (c : client) (t : list event) : Prop := c_kind c = KForced ->
  c_keep c = false /\ c_rawptr c = false /\ (c_selfsigned c = true -> A) /\
  (c_conn c = true -> exists b, c_bio c = Some b /\ verified A (bio_id b) t).

Lemma forced_ok_app : forall A c t t', forced_ok A c t -> forced_ok A c (t ++ t').
Proof.
  intros A c t t' H K. destruct (H K) as (H1 & H2 & H3 & H4). repeat split; auto.
  intros C. destruct (H4 C) as (b & B1 & B2). exists b. split; [assumption|]. apply verified_app. assumption.
Qed.

Lemma quiet_secure : forall ok t0 t, writes_nothing t -> only_secure ok t0 t.
Proof.
  intros ok t0 t W. change t with ([] ++ t). apply only_secure_app; [|assumption]. split; intros t1 * E; destruct t1; discriminate E.
Qed.
Lemma sealed_ok : forall A t0 c0 s, sealed (verified A) t0 s -> config (s_c s) = config c0 -> (c_selfsigned c0 = true -> A) ->
  (exists t, s_t s = t0 ++ t /\ only_secure (verified A) t0 t) /\ forced_ok A (s_c s) (s_t s).
Proof.
  intros A t0 c0 s (K & R & Kp & t & T & O & D) C HA. split; [eauto|]. intros _.
  assert (c_selfsigned (s_c s) = c_selfsigned c0) as Sf by (unfold config in C; congruence).
  repeat split; try assumption; [intros X; apply HA; congruence|].
  intros Cn. destruct D as [D|(_ & _ & D & _)]; [exact D|congruence].
Qed.
Lemma sealed_conn : forall ok t0 s, sealed ok t0 s -> c_bio (s_c s) <> None -> sealed ok t0 (c_state s (set_conn true)).
Proof.
  intros ok t0 s (K & R & Kp & t & T & O & D) B. split; [exact K|]. split; [exact R|]. split; [exact Kp|].
  exists t. split; [exact T|]. split; [exact O|]. destruct D as [D|(D & _)]; [left; exact D|contradiction].
Qed.
Lemma secured_sealed : forall (ok : nat -> list event -> Prop) t0 s s', (forall b t t', ok b t -> ok b (t ++ t')) ->
  secured s s' -> sealed ok t0 s -> sealed ok t0 s'.
Proof.
  intros ok t0 s s' Mono (s1 & S1 & H) L. assert (L1 := steps_sealed _ _ _ _ Mono S1 L).
  destruct H as [->|[B S2]]; [exact L1|]. eapply steps_sealed; [exact Mono|exact S2|]. apply sealed_conn; assumption.
Qed.

Lemma forced_send : forall (A : Prop) m s, c_kind (s_c s) = KForced -> forced_ok A (s_c s) (s_t s) ->
  (exists t, s_t (snd (sendMail m s)) = s_t s ++ t /\ only_secure (verified A) (s_t s) t) /\
  forced_ok A (s_c (snd (sendMail m s))) (s_t (snd (sendMail m s))).
Proof.
  intros A m s K F. destruct (F K) as (F1 & F2 & F3 & F4).
  destruct (c_conn (s_c s)) eqn:C.
  - destruct (F4 eq_refl) as (b & B1 & B2). assert (S := secured_old m s C).
    eapply sealed_ok with (c0 := s_c s); [|apply steps_config in S; exact S|exact F3].
    eapply steps_sealed; [apply verified_app|exact S|]. split; [simpl; congruence|]. split; [exact F2|]. split; [exact F1|].
    exists []. split; [symmetry; apply app_nil_r|]. split; [apply quiet_secure; intros x []|]. left. exists b. auto.
  - assert (Cf := steps_config _ _ _ (proj1 (sendMail_walk m s))).
    destruct (forced_phases m s K C) as (s1 & S1 & H).
    destruct (steps_silent _ _ _ opening_silent S1) as (t1 & T1 & W1).
    destruct (steps_modes _ _ _ opening_keep S1) as [M1 M1'].
    assert (C1 := steps_conn_off _ _ _ opening_conn S1 C).
    destruct H as [E|(s2 & S2 & H)].
    + rewrite E in *. split; [exists t1; split; [assumption|]; apply quiet_secure; assumption|].
      intros _. split; [congruence|]. split; [congruence|].
      split; [intros X; apply F3; unfold config in Cf; congruence|]. congruence.
    + destruct (steps_silent _ _ _ negotiating_silent S2) as (t2 & T2 & W2).
      destruct (steps_modes _ _ _ negotiating_keep S2) as [M2 M2'].
      assert (C2 := steps_conn_off _ _ _ negotiating_conn S2 C1).
      assert (W : writes_nothing (t1 ++ t2)).
      { intros x Hx. apply in_app_or in Hx as [Hx|Hx]; [apply W1|apply W2]; exact Hx. }
      assert (T : s_t s2 = s_t s ++ t1 ++ t2) by (rewrite T2, T1, app_assoc; reflexivity).
      destruct H as [E|[Ss S3]].
      * rewrite E in *. split; [exists (t1 ++ t2); split; [assumption|]; apply quiet_secure; assumption|].
        intros _. split; [congruence|]. split; [congruence|].
        split; [intros X; apply F3; unfold config in Cf; congruence|]. congruence.
      * destruct Ss as (_ & K2 & _ & _ & b & B2 & A2).
        eapply sealed_ok with (c0 := s_c s); [|exact Cf|exact F3].
        eapply secured_sealed; [apply verified_app|exact S3|]. split; [congruence|]. split; [congruence|]. split; [congruence|].
        exists (t1 ++ t2). split; [assumption|]. split; [apply quiet_secure; assumption|]. left. exists b. split; [assumption|].
        eapply accepted_verified; eauto.
Qed.

Lemma forced_destroy : forall (A : Prop) s, c_kind (s_c s) = KForced -> forced_ok A (s_c s) (s_t s) ->
  exists t, s_t (snd (destroy s)) = s_t s ++ t /\ only_secure (verified A) (s_t s) t.
Proof.
  intros A s K F. destruct (F K) as (F1 & F2 & F3 & F4).
  destruct (c_conn (s_c s)) eqn:C.
  - destruct (F4 eq_refl) as (b & B1 & B2).
    assert (S : steps secure_nc s (snd (destroy s))).
    { unfold destroy. apply walk_bind; [|intros; apply walk_ret]. apply wcleanup; [apply secure_nc_base|].
      intros _. apply secure_nc_write. }
    destruct (steps_sealed (verified A) (s_t s) _ _ (verified_app A) S) as (_ & _ & _ & t & T & O & _); [|eauto].
    split; [congruence|]. split; [exact F2|]. split; [exact F1|].
    exists []. split; [symmetry; apply app_nil_r|]. split; [apply quiet_secure; intros x []|]. left. exists b. auto.
  - assert (S : steps base s (snd (destroy s))).
    { unfold destroy. apply walk_bind; [|intros; apply walk_ret]. apply wcleanup; [auto|].
      intros E. rewrite C, andb_false_r in E. discriminate E. }
    destruct (steps_silent base _ _ ltac:(intros []; simpl; tauto) S) as (t & T & W).
    exists t. split; [assumption|]. apply quiet_secure. assumption.
Qed.

Section ForcedProgram.
Variable ops : list op.
Hypothesis NK : keeps_virtual ops.

Lemma forced_step : forall o w x w', In o ops -> step o w = (x, w') ->
  all_clients (forced_ok (opted_in ops)) w -> all_clients (forced_ok (opted_in ops)) w'.
Proof.
  intros o w x w' Ho S A i c G. assert (O := step_origin _ _ _ _ _ _ S G).
  destruct (step_trace _ _ _ _ S) as [t' T].
  assert (E := step_effect _ _ _ _ S).
  assert (Same : forall j d, get_client w j = Some d -> forced_ok (opted_in ops) d (w_trace w')).
  { intros j d X. rewrite T. apply forced_ok_app. eapply A; eauto. }
  inversion O; subst.
  - eapply Same; eauto.
  - unfold client_new in H0. destruct (check_server_name p) as [name| | | | |]; try discriminate H0.
    simpl in H0. injection H0 as <-. intros _. simpl. repeat split; congruence.
  - unfold client_copy in H1. destruct (c_server c0); [|discriminate H1]. injection H1 as <-.
    intros K. destruct (Same _ _ H0 K) as (H1 & H2 & H3 & _). simpl. repeat split; auto. discriminate.
  - intros K. destruct (Same _ _ H0 K) as (H1 & H2 & H3 & H4). simpl. auto.
  - intros K. destruct (Same _ _ H0 K) as (H1 & H2 & H3 & H4). simpl. repeat split; auto; discriminate.
  - unfold client_assign in H4. destruct (c_server c0); [|discriminate H4]. injection H4 as <-. simpl in *.
    intros K. simpl in K. rewrite H3 in K. destruct (Same _ _ H1 K) as (X1 & X2 & X3 & X4). simpl. repeat split; auto. discriminate.
  - intros K. simpl in K. rewrite H3 in K. destruct (Same _ _ H1 K) as (X1 & X2 & X3 & X4). simpl. auto.
  - intros K. simpl in K. destruct (Same _ _ H1 K) as (X1 & X2 & X3 & X4). simpl. repeat split; auto; discriminate.
  - destruct E as [[E1 E2]|[(i' & m' & c' & E1 & E2 & E3 & E4 & E5)|(i' & c' & E1 & _)]]; [| |discriminate E1].
    + (* no effect: the trace is unchanged *)
      assert (W := proj1 (sendMail_walk m (mkSt c0 (w_env w) (w_trace w)))).
      intros K. rewrite E1. 
      assert (K0 : c_kind c0 = KForced). { apply steps_config in W. unfold config in W. simpl in W. congruence. }
      simpl in S. unfold run_on in S. rewrite H0 in S.
      destruct (sendMail m (mkSt c0 (w_env w) (w_trace w))) as [o' s'] eqn:Q. inversion S; subst. simpl in E1.
      destruct (forced_send (opted_in ops) m (mkSt c0 (w_env w) (w_trace w)) K0 (A _ _ H0)) as [_ R].
      rewrite Q in R. simpl in R. rewrite E1 in R. apply R. exact K.
    + inversion E1; subst. rewrite H0 in E2. inversion E2; subst. rewrite E5. intros K.
      assert (W := proj1 (sendMail_walk m' (mkSt c' (w_env w) (w_trace w)))).
      assert (K0 : c_kind c' = KForced). { apply steps_config in W. unfold config in W. simpl in W. congruence. }
      apply (forced_send (opted_in ops) m' (mkSt c' (w_env w) (w_trace w)) K0 (A _ _ H0)). exact K.
  - unfold client_setServerName in H1. destruct (check_server_name p); try discriminate H1. simpl in H1. injection H1 as <-.
    exact (Same _ _ H0).
  - exact (Same _ _ H0).
  - exact (Same _ _ H0).
  - exact (Same _ _ H0).
  - exact (Same _ _ H0).
  - intros K. destruct (Same _ _ H0 K) as (H1 & H2 & H3 & H4). destruct b; [destruct (NK _ Ho)|]. simpl. auto.
  - intros K. destruct (Same _ _ H0 K) as (X1 & X2 & X3 & X4). simpl. repeat split; auto.
    intros ->. exists i. exact Ho.
Qed.

Lemma forced_run : forall e, all_clients (forced_ok (opted_in ops)) (snd (run ops (initial_world e))).
Proof.
  intros e. apply run_inv with (allowed := fun o => In o ops); [|auto|].
  - intros o w x w' Ho S. apply forced_step with (o := o) (x := x); assumption.
  - intros i c H. unfold get_client in H. destruct i; discriminate H.
Qed.
End ForcedProgram.

Lemma forced_op : forall ops e i c o x w' t,
  keeps_virtual ops ->
  get_client (snd (run ops (initial_world e))) i = Some c -> c_kind c = KForced -> uses i o ->
  step o (snd (run ops (initial_world e))) = (x, w') ->
  w_trace w' = w_trace (snd (run ops (initial_world e))) ++ t ->
  only_secure (verified (opted_in ops)) (w_trace (snd (run ops (initial_world e)))) t.
Proof.
  intros ops e i c o x w' t NK G K U S T. set (w := snd (run ops (initial_world e))) in *.
  assert (F : forced_ok (opted_in ops) c (w_trace w)) by (eapply (forced_run ops NK e); exact G).
  apply step_effect in S as [[E _]|[(j & m & c' & -> & G' & _ & _ & E)|(j & c' & -> & G' & _ & _ & E)]].
  - rewrite E in T. rewrite <- (app_nil_r (w_trace w)) in T at 1. apply app_inv_head in T. subst t.
    apply quiet_secure. intros y [].
  - destruct U as [[m' U]|U]; inversion U; subst. rewrite G in G'. inversion G'; subst.
    destruct (forced_send (opted_in ops) m' (mkSt c' (w_env w) (w_trace w)) K F) as [(t' & T' & O) _].
    rewrite <- E, T in T'. apply app_inv_head in T'. subst t'. exact O.
  - destruct U as [[m' U]|U]; inversion U; subst. rewrite G in G'. inversion G'; subst.
    destruct (forced_destroy (opted_in ops) (mkSt c' (w_env w) (w_trace w)) K F) as (t' & T' & O).
    rewrite <- E, T in T'. apply app_inv_head in T'. subst t'. exact O.
Qed.
