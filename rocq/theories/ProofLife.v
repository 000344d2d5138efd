(** The life cycle of connections. *)

From Coq Require Import Ascii String List NArith ZArith Bool Lia ZifyBool ZifyNat ZifyN.
From Verif Require Import Base Lib ModelUtil ModelBase64 ModelAddress ModelAttachment
  ModelErrors ModelReply ModelMessage ModelState ModelClient ModelWorld
  ProofSteps ProofWalk ProofPhases ProofEstablish ProofLog ProofSend ProofWorld
  SpecAddress SpecText SpecReply SpecMime SpecDialogue SpecLife
  ProofTls ProofTls2 ProofDialogue ProofMail ProofMail2.
Import ListNotations.
Open Scope Z_scope.

Lemma stay_cleanup : forall s, walk stay cleanup s.
Proof. intros s. apply (wcleanup stay stay_base). intros _. apply stay_write. Qed.

Lemma estep_trace : forall l s s', estep l s s' -> exists t, s_t s' = s_t s ++ t.
Proof. intros l s s' H. exact (steps_prefix (fun x => x = l) s s' (steps_one _ _ _ _ H eq_refl)). Qed.

Ltac log_same H := apply addLog_core in H as (?C & _ & ?T & _).

Lemma estep_kind : forall l s s', estep l s s' -> c_kind (s_c s') = c_kind (s_c s).
Proof. intros l s s' H. exact (steps_kind (fun x => x = l) s s' (steps_one _ _ _ _ H eq_refl)). Qed.
Lemma estep_stay : forall l s s', estep l s s' -> stay l ->
  exists t, s_t s' = s_t s ++ t /\ (forall ev, In ev t -> ~ opening_event ev) /\
    ((s' = teardown s /\ (forall ev, In ev t -> closing_event ev)) \/
     (c_conn (s_c s') = c_conn (s_c s) /\ c_sock (s_c s') = c_sock (s_c s) /\ c_bio (s_c s') = c_bio (s_c s) /\ c_ctx (s_c s') = c_ctx (s_c s) /\
      (forall ev, In ev t -> ~ closing_event ev /\ (is_write ev -> exists d, written_on (s_c s) d ev)))).
Proof.
  intros l s s' H Sl. destruct H; try destruct Sl.
  - exists []. split; [symmetry; apply app_nil_r|]. split; [intros ev []|]. right. do 4 (split; [reflexivity|]). intros ev [].
  - exists []. log_same H. split; [rewrite T; symmetry; apply app_nil_r|]. split; [intros ev []|]. right. core_facts C.
    do 4 (split; [assumption|]). intros ev [].
  - exists []. split; [symmetry; apply app_nil_r|]. split; [intros ev []|]. right. do 4 (split; [reflexivity|]). intros ev [].
  - exists []. split; [symmetry; apply app_nil_r|]. split; [intros ev []|]. right. do 4 (split; [reflexivity|]). intros ev [].
  - eexists. split; [reflexivity|]. split; [intros ev [<-|[]] []|]. right. do 4 (split; [reflexivity|]).
    intros ev [<-|[]]. split; intros [].
  - unfold teardown. destruct (c_kind (s_c s)) eqn:K; cbn [s_t]; (eexists; split; [reflexivity|]);
      destruct (c_sock (s_c s) =? 0); try destruct (c_ctx (s_c s)); try destruct (c_bio (s_c s)); cbn [app In];
      (split; [|left; split; [reflexivity|]]); intros ev Hin; repeat (destruct Hin as [<-|Hin]; [try exact I; intros []|]); destruct Hin.
  - eexists. split; [reflexivity|]. split; [intros ev [<-|[]] []|]. right. do 4 (split; [reflexivity|]).
    intros ev [<-|[]]. split; [intros []|]. intros _. exists d. left. eauto.
  - eexists. split; [reflexivity|]. split; [intros ev [<-|[]] []|]. right. do 4 (split; [reflexivity|]).
    intros ev [<-|[]]. split; [intros []|]. intros _. exists d. right. eauto.
  - destruct H; (eexists; split; [reflexivity|]); (split; [intros ev [<-|[]] []|]); right; do 4 (split; [reflexivity|]);
      intros ev [<-|[]]; split; intros [].
Qed.

Lemma written_on_core : forall c c' d ev, c_kind c' = c_kind c -> c_sock c' = c_sock c -> c_bio c' = c_bio c -> written_on c d ev -> written_on c' d ev.
Proof. intros c c' d ev H0 H1 H2 H. unfold written_on. rewrite H0, H1, H2. exact H. Qed.

Lemma teardown_off : forall s, c_conn (s_c (teardown s)) = false /\ c_sock (s_c (teardown s)) = 0 /\
  (c_kind (s_c s) <> KPlain -> c_bio (s_c (teardown s)) = None /\ c_ctx (s_c (teardown s)) = None).
Proof. intros s. unfold teardown. destruct (c_kind (s_c s)); repeat split; congruence. Qed.

(** Nothing is opened; unless the client was disconnected, nothing was closed
    and every write went to the connection it holds. *)
Lemma steps_stay : forall s s', steps stay s s' ->
  exists t, s_t s' = s_t s ++ t /\ (forall ev, In ev t -> ~ opening_event ev) /\
    (c_conn (s_c s') = true -> c_conn (s_c s) = true /\ c_sock (s_c s') = c_sock (s_c s) /\ c_bio (s_c s') = c_bio (s_c s) /\ c_ctx (s_c s') = c_ctx (s_c s) /\
      forall ev, In ev t -> ~ closing_event ev /\ (is_write ev -> exists d, written_on (s_c s') d ev)).
Proof.
  intros s s' H. induction H as [s|l s1 s2 s3 E Pl S (t2 & T2 & O2 & K2)].
  - exists []. split; [symmetry; apply app_nil_r|]. split; [intros ev []|]. intros C. do 3 (split; [auto|]). split; [reflexivity|intros ev []].
  - destruct (estep_stay _ _ _ E Pl) as (t1 & T1 & O1 & K1). exists (t1 ++ t2).
    split; [rewrite T2, T1, app_assoc; reflexivity|]. split; [intros ev Hin; apply in_app_or in Hin as [Hin|Hin]; auto|].
    intros C. destruct (K2 C) as (C2 & F2 & B2 & X2 & W2). destruct K1 as [[-> _]|(C1 & F1 & B1 & X1 & W1)].
    + destruct (teardown_off s1) as [Off _]. congruence.
    + split; [congruence|]. split; [congruence|]. split; [congruence|]. split; [congruence|].
      intros ev Hin. apply in_app_or in Hin as [Hin|Hin]; [|auto]. destruct (W1 ev Hin) as [W3 W4]. split; [exact W3|].
      intros Hw. destruct (W4 Hw) as [d Hd]. exists d. apply (written_on_core (s_c s1)); [|congruence|congruence|exact Hd].
      rewrite (steps_kind _ _ _ S). exact (estep_kind _ _ _ E).
Qed.

(** The connection held at the start is held at the end, or was closed. *)
Lemma teardown_closes : forall s, exists t, s_t (teardown s) = s_t s ++ t /\
  (c_sock (s_c s) = 0 \/ In (EvClose (c_sock (s_c s))) t) /\
  (c_kind (s_c s) <> KPlain -> (forall b, c_bio (s_c s) = Some b -> In (EvBioFree (bio_id b)) t) /\
     (forall i, c_ctx (s_c s) = Some i -> In (EvCtxFree i) t)).
Proof.
  intros s. unfold teardown. destruct (c_kind (s_c s)) eqn:K; cbn [s_t]; (eexists; split; [reflexivity|]).
  - split; [|congruence]. destruct (c_sock (s_c s) =? 0) eqn:E; [left; lia|right; left; reflexivity].
  - split; [|intros _; split; intros ? ->].
    + destruct (c_sock (s_c s) =? 0) eqn:E; [left; lia|right]. apply in_or_app. right. apply in_or_app. right. left. reflexivity.
    + apply in_or_app. right. left. reflexivity.
    + left. reflexivity.
  - split; [|intros _; split; intros ? ->].
    + destruct (c_sock (s_c s) =? 0) eqn:E; [left; lia|right]. apply in_or_app. right. apply in_or_app. right. left. reflexivity.
    + apply in_or_app. right. left. reflexivity.
    + left. reflexivity.
Qed.

Lemma steps_closed : forall s s', steps stay s s' -> exists t, s_t s' = s_t s ++ t /\
  (c_sock (s_c s') = c_sock (s_c s) \/ (c_sock (s_c s') = 0 /\ (c_sock (s_c s) = 0 \/ In (EvClose (c_sock (s_c s))) t))) /\
  (c_kind (s_c s) <> KPlain ->
    (c_bio (s_c s') = c_bio (s_c s) \/ (c_bio (s_c s') = None /\ forall b, c_bio (s_c s) = Some b -> In (EvBioFree (bio_id b)) t)) /\
    (c_ctx (s_c s') = c_ctx (s_c s) \/ (c_ctx (s_c s') = None /\ forall i, c_ctx (s_c s) = Some i -> In (EvCtxFree i) t))).
Proof.
  intros s s' H. induction H as [s|l s1 s2 s3 E Pl S (t2 & T2 & F2 & K2)].
  - exists []. split; [symmetry; apply app_nil_r|]. split; [auto|]. auto.
  - destruct (estep_stay _ _ _ E Pl) as (t1 & T1 & O1 & K1). exists (t1 ++ t2).
    split; [rewrite T2, T1, app_assoc; reflexivity|].
    destruct K1 as [[-> _]|(C1 & F1 & B1 & X1 & W1)].
    + destruct (teardown_closes s1) as (t1' & T1' & F1 & K1). rewrite T1 in T1'. apply app_inv_head in T1'. subst t1'.
      destruct (teardown_off s1) as (_ & Z & Kb). assert (Kk := estep_kind _ _ _ E). split.
      * right. split; [destruct F2 as [->|[-> _]]; [exact Z|reflexivity]|]. destruct F1 as [F1|F1]; [left; exact F1|right; apply in_or_app; left; exact F1].
      * intros Nk. destruct (Kb Nk) as [Zb Zx]. destruct (K1 Nk) as [Cb Cx]. rewrite Kk in K2. destruct (K2 Nk) as [Lb Lx]. split; right.
        -- split; [destruct Lb as [->|[-> _]]; [exact Zb|reflexivity]|]. intros b Hb. apply in_or_app. left. apply Cb, Hb.
        -- split; [destruct Lx as [->|[-> _]]; [exact Zx|reflexivity]|]. intros b Hb. apply in_or_app. left. apply Cx, Hb.
    + assert (Kk := estep_kind _ _ _ E). split.
      * destruct F2 as [F2|[F2 F2']]; [left; congruence|right]. split; [exact F2|]. rewrite F1 in F2'. destruct F2' as [X|X]; [left; exact X|right; apply in_or_app; right; exact X].
      * intros Nk. rewrite Kk in K2. destruct (K2 Nk) as [Lb Lx]. rewrite B1 in Lb. rewrite X1 in Lx. split.
        -- destruct Lb as [Lb|[Lb Lb']]; [left; exact Lb|right]. split; [exact Lb|]. intros b Hb. apply in_or_app. right. apply Lb', Hb.
        -- destruct Lx as [Lx|[Lx Lx']]; [left; exact Lx|right]. split; [exact Lx|]. intros b Hb. apply in_or_app. right. apply Lx', Hb.
Qed.

Lemma cleanup_f_off : forall n s u s', cleanup_f n s = (Done u, s') -> exists s1, s' = teardown s1.
Proof.
  intros [|n] s u s' H; [discriminate H|]. rewrite cleanup_f_eq in H. unfold bind at 1, getc in H.
  apply bind_done in H as (v & s1 & H1 & H). exists s1.
  assert (K : c_kind (s_c s) = c_kind (s_c s1)).
  { assert (W : walk stay (if c_batch (s_c s) && c_conn (s_c s) then _ <- sendQuit_with (cleanup_f n);; ret tt else ret tt) s).
    { assert (Wc : forall s0, walk stay (cleanup_f n) s0).
      { intros s0. apply walk_cleanup_f_quit; try exact I. apply stay_write. }
      destruct (_ && _); [|apply walk_ret]. apply walk_bind; [|intros; apply walk_ret]. unfold sendQuit_with.
      apply walk_bind; [apply walk_logc; exact I|]. intros. apply walk_cmd_ptr_with; try exact I; [exact Wc|apply stay_write]. }
    destruct W as [W _]. rewrite H1 in W. symmetry. exact (steps_kind _ _ _ W). }
  rewrite K, cleanup_tail_eq in H. inversion H. reflexivity.
Qed.
Lemma cleanup_off : forall s u s', cleanup s = (Done u, s') -> exists s1, s' = teardown s1.
Proof. intros s u s' H. exact (cleanup_f_off _ _ _ _ H). Qed.

Lemma written_in_l : forall d a b, In d (written a) -> In d (written (a ++ b)).
Proof. intros d a b H. rewrite written_app. apply in_or_app. auto. Qed.
Lemma written_in_r : forall d a b, In d (written b) -> In d (written (a ++ b)).
Proof. intros d a b H. rewrite written_app. apply in_or_app. auto. Qed.
Lemma written_in : forall d t1 ev t2, writes d ev -> In d (written (t1 ++ ev :: t2)).
Proof.
  intros d t1 ev t2 W. change (t1 ++ ev :: t2) with (t1 ++ [ev] ++ t2). apply written_in_r, written_in_l.
  rewrite (written_write _ _ W). left. reflexivity.
Qed.

Lemma grows_cleanup_f : forall n, grows (cleanup_f n).
Proof.
  intros n s. destruct (walk_cleanup_f_quit stay I I I I (stay_write _) n s) as [W _].
  exact (steps_prefix _ _ _ W).
Qed.

Lemma grows_emit : forall ev, grows (emit ev).
Proof. intros ev s. eexists. reflexivity. Qed.
Lemma cleanup_tail_ext : forall k s u s', cleanup_tail k s = (Done u, s') -> ext s s'.
Proof.
  intros k s u s' H. assert (G : grows (cleanup_tail k)).
  { unfold cleanup_tail, close_socket, free_tls. apply grows_bind; [apply grows_updc|]. intros _. apply grows_bind.
    - destruct k; [apply grows_ret| |]; (apply grows_getc; intros c; apply grows_bind; [destruct (c_ctx c); [apply grows_emit|apply grows_ret]|]; intros _;
        apply grows_bind; [apply grows_updc|]; intros _; apply grows_bind; [destruct (c_bio c); [apply grows_emit|apply grows_ret]|]; intros _; apply grows_updc).
    - intros _. apply grows_getc. intros c. apply grows_bind; [destruct (_ =? _); [apply grows_ret|apply grows_emit]|]. intros _. apply grows_updc. }
  specialize (G s). rewrite H in G. exact G.
Qed.

Lemma quit_written_f : forall n s u s', cleanup_f n s = (Done u, s') -> c_batch (s_c s) && c_conn (s_c s) = true ->
  exists t, s_t s' = s_t s ++ t /\ In QUIT_line (written t).
Proof.
  induction n as [|n IH]; intros s u s' H Bc; [discriminate H|]. rewrite cleanup_f_eq in H. unfold bind at 1, getc in H. rewrite Bc in H.
  apply bind_done in H as (v & s1 & H1 & H).
  assert (X1 : ext s1 s') by (eapply cleanup_tail_ext; exact H).
  apply bind_done in H1 as (z & s2 & H1 & H2). apply ret_done in H2 as [_ ->].
  unfold sendQuit_with in H1. apply bind_done in H1 as (w & s0 & H0 & H1). destruct w; apply logc_core in H0 as (C0 & E0 & T0 & _).
  assert (G : exists t, s_t s2 = s_t s0 ++ t /\ In QUIT_line (written t)); [|].
  { clear -IH H1 C0 Bc. core_facts C0. unfold sendCommandPtr_with, bind at 1, getc in H1.
    assert (Raw : sendRaw2_with (cleanup_f n) (B "QUIT" ++ CRLF) CLIENT_SENDMAIL_QUIT_ERROR s0 = (Done z, s2) ->
      exists t, s_t s2 = s_t s0 ++ t /\ In QUIT_line (written t)).
    { clear H1. intros H. unfold sendRaw2_with in H. apply bind_done in H as (r & s3 & H3 & H). apply send_core in H3 as [C T].
      assert (X : ext s3 s2).
      { destruct r; try (apply ret_done in H as [_ ->]; apply ext_refl); [|discriminate H].
        apply bind_done in H as (a & s4 & H4 & H). assert (T4 : s_t s4 = s_t s3) by (inversion H4; reflexivity). apply bind_done in H as (b & s5 & H5 & H).
        apply ret_done in H as [_ ->]. assert (Gr := grows_cleanup_f n s4). rewrite H5 in Gr. unfold ext in *. rewrite T4 in Gr. exact Gr. }
      destruct X as [t4 T4]. eexists. split; [rewrite T4, T, <- app_assoc; reflexivity|]. apply (written_in _ []). left. eexists _, _. reflexivity. }
    assert (Tls : sendCommandTLS_with (cleanup_f n) (B "QUIT" ++ CRLF) CLIENT_SENDMAIL_QUIT_ERROR s0 = (Done z, s2) ->
      exists t, s_t s2 = s_t s0 ++ t /\ In QUIT_line (written t)).
    { clear H1 Raw. intros H. unfold sendCommandTLS_with, bind at 1, getc in H. destruct (c_bio (s_c s0)) as [b|].
      - apply bind_done in H as (r & s3 & H3 & H). apply puts_core in H3 as [C T].
        assert (X : ext s3 s2).
        { destruct r; try (apply ret_done in H as [_ ->]; apply ext_refl); [|discriminate H].
          apply bind_done in H as (a & s4 & H4 & H). assert (T4 : s_t s4 = s_t s3) by (inversion H4; reflexivity). apply bind_done in H as (b' & s5 & H5 & H).
          apply ret_done in H as [_ ->]. assert (Gr := grows_cleanup_f n s4). rewrite H5 in Gr. unfold ext in *. rewrite T4 in Gr. exact Gr. }
        destruct X as [t4 T4]. eexists. split; [rewrite T4, T, <- app_assoc; reflexivity|]. apply (written_in _ []). right. eexists _, _. reflexivity.
      - apply bind_done in H as (a & s4 & H4 & H). inversion H4; subst. apply bind_done in H as (b' & s5 & H5 & H).
        apply ret_done in H as [_ ->]. apply IH in H5; [exact H5|]. cbn. congruence. }
    destruct (c_rawptr (s_c s0)); [apply Raw, H1|]. destruct (c_kind (s_c s0)); [apply Raw, H1|apply Tls, H1|apply Tls, H1]. }
  destruct G as (t2 & T2 & W2). destruct X1 as [t3 T3]. exists (t2 ++ t3). split; [rewrite T3, T2, T0, <- app_assoc; reflexivity|].
  apply written_in_l, W2.
Qed.

(** ** The last write *)
Lemma not_write_written : forall t, (forall ev, In ev t -> ~ is_write ev) -> written t = [].
Proof.
  intros t H. apply silent_written. intros ev Hin. specialize (H ev Hin). destruct ev; try exact I; exfalso; apply H; exact I.
Qed.
Lemma written_cons : forall ev t, written (ev :: t) = written [ev] ++ written t.
Proof. intros ev t. exact (written_app [ev] t). Qed.
Lemma last_write : forall t l d, written t = l ++ [d] -> exists ta ev tb, t = ta ++ ev :: tb /\ writes d ev /\ written ta = l /\ written tb = [].
Proof.
  induction t as [|ev t IH]; intros l d H; [destruct l; discriminate H|]. rewrite written_cons in H.
  assert (W : written [ev] = [] \/ exists x, written [ev] = [x] /\ writes x ev).
  { destruct ev; try (left; reflexivity); try (destruct r; left; reflexivity);
    right; eexists; (split; [reflexivity|]); [left|right]; eexists _, _; reflexivity. }
  destruct W as [W|(x & W & Wx)]; rewrite W in H; cbn [app] in H.
  - destruct (IH l d H) as (ta & e & tb & -> & We & Wa & Wb). exists (ev :: ta), e, tb.
    split; [reflexivity|]. split; [exact We|]. split; [|exact Wb]. rewrite written_cons, W. exact Wa.
  - destruct l as [|y l]; cbn [app] in H.
    + inversion H; subst. exists [], ev, t. auto.
    + inversion H; subst. destruct (IH l d H2) as (ta & e & tb & -> & We & Wa & Wb). exists (ev :: ta), e, tb.
      split; [reflexivity|]. split; [exact We|]. split; [|exact Wb]. rewrite written_cons, W, Wa. reflexivity.
Qed.

Lemma talk_written : forall t l, talk t l -> written t = map fst l.
Proof. intros t l H. unfold written. rewrite (talk_exchanges _ _ H). reflexivity. Qed.

Lemma closed_in_app : forall t a b ev, closed_in t ev -> closed_in (a ++ t ++ b) ev.
Proof.
  intros t a b ev H. destruct ev; cbn in *; try exact H; [destruct H as [H|H]; [left; exact H|right]|];
    apply in_or_app; right; apply in_or_app; left; exact H.
Qed.
Lemma writes_is : forall d ev, writes d ev -> is_write ev.
Proof. intros d ev [(fd & r & ->)|(b & r & ->)]; exact I. Qed.

(** A write to the held connection, followed by the teardown. *)
Lemma teardown_closed_in : forall s t ev d, s_t (teardown s) = s_t s ++ t -> written_on (s_c s) d ev ->
  closed_in t ev.
Proof.
  intros s t ev d T W. destruct (teardown_closes s) as (t' & T' & C & B'). rewrite T in T'. apply app_inv_head in T'. subst t'.
  destruct W as [(r & ->)|(b & r & K & Hb & ->)]; [exact C|]. exact (proj1 (B' K) _ Hb).
Qed.

(** ** Normal mode *)
Lemma transaction_normal : forall m s s', mail_transaction m s = (Done 0, s') -> c_conn (s_c s) = true -> c_batch (s_c s) = false ->
  bad odd s s' \/
  exists t1 ev t2, s_t s' = s_t s ++ t1 ++ ev :: t2 /\ writes QUIT_line ev /\ written t2 = [] /\ closed_in t2 ev /\
    c_conn (s_c s') = false /\ c_sock (s_c s') = 0.
Proof.
  intros m s s' H C Bt. destruct (transaction_done _ _ _ H) as [O|(dlg & s1 & Sc & R & S & E)]; [left; exact O|right].
  rewrite Bt in *. subst s'. destruct R as (Cr & t & T & K).
  destruct (steps_stay _ _ S) as (t' & T' & _ & W). rewrite T in T'. apply app_inv_head in T'. subst t'.
  core_facts Cr. destruct (W ltac:(congruence)) as (_ & _ & _ & _ & W').
  assert (Ew : exists l, written t = l ++ [QUIT_line]).
  { destruct Sc as (refused & line & reply & more & l & r1 & body & r2 & -> & _). rewrite (talk_written _ _ K).
    assert (X : exists l0, said_all m false body refused line reply l r1 r2 = l0 ++ [(QUIT_line, [])]).
    { exists (refused ++ (line, reply) :: l ++ (DATA_line, r1) :: silent (map cstr (data_headers m)) ++
        silent (map cstr (body_chunks body)) ++ [(END_line, r2)]). unfold said_all.
      repeat (rewrite <- app_assoc; cbn [app]). reflexivity. }
    destruct X as [l0 ->]. rewrite map_app. eexists. reflexivity. }
  destruct Ew as (l & Ew). destruct (last_write _ _ _ Ew) as (ta & ev & tb & -> & We & _ & Wb).
  destruct (teardown_closes s1) as (tq & Tq & _). destruct (teardown_off s1) as (O1 & O2 & _).
  exists ta, ev, (tb ++ tq). split; [rewrite Tq, T, <- !app_assoc; reflexivity|]. split; [exact We|].
  destruct (W' ev ltac:(apply in_or_app; right; left; reflexivity)) as [_ Won]. destruct (Won (writes_is _ _ We)) as [d Hd].
  assert (Cl := teardown_closed_in _ _ _ _ Tq Hd). split; [|split; [|auto]].
  - rewrite written_app, Wb. apply not_write_written. destruct (deaf_teardown s1) as (tq' & Tq' & D). rewrite Tq in Tq'.
    apply app_inv_head in Tq'. subst tq'. rewrite Forall_forall in D. intros e He X. specialize (D e He). destruct e; auto; destruct D.
  - rewrite <- (app_nil_r tq). apply closed_in_app. exact Cl.
Qed.

Lemma odd_suffix : forall s s1 s' t t1, s_t s' = s_t s ++ t -> s_t s1 = s_t s ++ t1 -> bad odd s1 s' -> odd t.
Proof.
  intros s s1 s' t t1 T T1 (t2 & T2 & O). rewrite T2, T1, <- app_assoc in T. apply app_inv_head in T. subst t. apply odd_r, O.
Qed.

Lemma send_normal : forall m s s' t, sendMail m s = (Done 0, s') -> s_t s' = s_t s ++ t -> c_batch (s_c s) = false ->
  standard t -> fields_written t ->
  exists t1 ev t2, t = t1 ++ ev :: t2 /\ writes QUIT_line ev /\ written t2 = [] /\ closed_in t2 ev /\
    c_conn (s_c s') = false /\ c_sock (s_c s') = 0.
Proof.
  intros m s s' t H T Bt St Ws.
  destruct (send_split _ _ _ _ H) as (s1 & t1 & T1 & _ & _ & [[_ N]|(C1 & Cf & _ & H2)]); [congruence|].
  assert (B1 : c_batch (s_c s1) = false) by (unfold config in Cf; congruence).
  destruct (transaction_normal _ _ _ H2 C1 B1) as [O|(ta & ev & tb & Tt & W & Q & Cl & Off)].
  - exfalso. exact (not_odd _ St Ws (odd_suffix _ _ _ _ _ T T1 O)).
  - exists (t1 ++ ta), ev, tb. split; [|auto]. rewrite Tt, T1, <- !app_assoc in T. apply app_inv_head in T. rewrite <- T, <- app_assoc. reflexivity.
Qed.

(** ** Batch mode *)
Lemma transaction_batch : forall m s s', mail_transaction m s = (Done 0, s') -> c_conn (s_c s) = true -> c_batch (s_c s) = true ->
  bad odd s s' \/
  exists t1 ev t2, s_t s' = s_t s ++ t1 ++ ev :: t2 /\ writes END_line ev /\ written_on (s_c s') END_line ev /\ written t2 = [] /\
    (forall e, In e (t1 ++ ev :: t2) -> ~ closing_event e /\ ~ opening_event e) /\
    c_conn (s_c s') = true /\ c_sock (s_c s') = c_sock (s_c s) /\ c_bio (s_c s') = c_bio (s_c s).
Proof.
  intros m s s' H C Bt. destruct (transaction_done _ _ _ H) as [O|(dlg & s1 & Sc & R & S & E)]; [left; exact O|right].
  rewrite Bt in *. subst s'. destruct R as (Cr & t & T & K).
  destruct (steps_stay _ _ S) as (t' & T' & Op & W). rewrite T in T'. apply app_inv_head in T'. subst t'.
  core_facts Cr. destruct (W ltac:(congruence)) as (_ & F1 & F2 & _ & W').
  assert (Ew : exists l, written t = l ++ [END_line]).
  { destruct Sc as (refused & line & reply & more & l & r1 & body & r2 & -> & _). rewrite (talk_written _ _ K).
    assert (X : exists l0, said_all m true body refused line reply l r1 r2 = l0 ++ [(END_line, r2)]).
    { exists (refused ++ (line, reply) :: l ++ (DATA_line, r1) :: silent (map cstr (data_headers m)) ++
        silent (map cstr (body_chunks body))). unfold said_all.
      repeat (rewrite <- app_assoc; cbn [app]). reflexivity. }
    destruct X as [l0 ->]. rewrite map_app. eexists. reflexivity. }
  destruct Ew as (l & Ew). destruct (last_write _ _ _ Ew) as (ta & ev & tb & -> & We & _ & Wb).
  exists ta, ev, tb. split; [exact T|]. split; [exact We|].
  destruct (W' ev ltac:(apply in_or_app; right; left; reflexivity)) as [_ Won]. destruct (Won (writes_is _ _ We)) as [d Hd].
  split. { destruct Hd as [(r & ->)|(b & r & K' & Hb & ->)]; destruct We as [(fd & r' & X)|(b' & r' & X)]; inversion X; subst; [left|right]; eauto. }
  split; [exact Wb|]. split; [|repeat split; congruence].
  intros e He. split; [apply W', He|apply Op, He].
Qed.

Lemma send_batch : forall m s s' t, sendMail m s = (Done 0, s') -> s_t s' = s_t s ++ t -> c_batch (s_c s) = true ->
  standard t -> fields_written t ->
  exists t1 ev t2, t = t1 ++ ev :: t2 /\ written_on (s_c s') END_line ev /\ written t2 = [] /\
    (forall e, In e t2 -> ~ closing_event e) /\ c_conn (s_c s') = true.
Proof.
  intros m s s' t H T Bt St Ws.
  destruct (send_split _ _ _ _ H) as (s1 & t1 & T1 & Cl & _ & [[_ N]|(C1 & Cf & _ & H2)]); [congruence|].
  assert (B1 : c_batch (s_c s1) = true) by (unfold config in Cf; congruence).
  destruct (transaction_batch _ _ _ H2 C1 B1) as [O|(ta & ev & tb & Tt & W & Q & Wn & Cn & Off & _)].
  - exfalso. exact (not_odd _ St Ws (odd_suffix _ _ _ _ _ T T1 O)).
  - exists (t1 ++ ta), ev, tb. split; [rewrite Tt, T1, <- !app_assoc in T; apply app_inv_head in T; rewrite <- T, <- app_assoc; reflexivity|].
    split; [exact Q|]. split; [exact Wn|]. split; [intros e He; apply Cn, in_or_app; right; right; exact He|exact Off].
Qed.

Lemma kept_send : forall m s, c_conn (s_c s) = true -> sendMail m s = mail_transaction m s.
Proof.
  intros m s C. rewrite sendMail_old by assumption. unfold bind, updc.
  change (mkSt (set_conn true (s_c s)) (s_e s) (s_t s)) with (c_state s (set_conn true)). rewrite set_conn_same by assumption. reflexivity.
Qed.
Lemma kept_reuse : forall m s x s' t, sendMail m s = (x, s') -> s_t s' = s_t s ++ t -> c_conn (s_c s) = true ->
  forall ev, In ev t -> ~ opening_event ev.
Proof.
  intros m s x s' t H T C. rewrite kept_send in H by assumption. destruct (stay_transaction m s) as [W _]. rewrite H in W. cbn [snd] in W.
  destruct (steps_stay _ _ W) as (t' & T' & O & _). rewrite T in T'. apply app_inv_head in T'. subst t'. exact O.
Qed.

(** ** The destructor *)
Lemma destroy_closes : forall s u s' t, cleanup s = (Done u, s') -> s_t s' = s_t s ++ t ->
  (c_batch (s_c s) = true -> c_conn (s_c s) = true -> In QUIT_line (written t)) /\
  (c_sock (s_c s) = 0 \/ In (EvClose (c_sock (s_c s))) t) /\
  (c_kind (s_c s) <> KPlain -> (forall b, c_bio (s_c s) = Some b -> In (EvBioFree (bio_id b)) t) /\
     (forall i, c_ctx (s_c s) = Some i -> In (EvCtxFree i) t)).
Proof.
  intros s u s' t H T. split; [|].
  - intros Bt C. destruct (quit_written_f _ _ _ _ H) as (t' & T' & Q); [rewrite Bt, C; reflexivity|].
    rewrite T in T'. apply app_inv_head in T'. subst t'. exact Q.
  - destruct (cleanup_off _ _ _ H) as [s1 E]. destruct (teardown_off s1) as (_ & O2 & O3). rewrite <- E in *.
    destruct (stay_cleanup s) as [W _]. rewrite H in W. cbn [snd] in W.
    assert (Kd := steps_kind _ _ _ W).
    destruct (steps_closed _ _ W) as (t' & T' & F & B'). rewrite T in T'. apply app_inv_head in T'. subst t'. split.
    + destruct F as [F|[_ F]]; [left; congruence|exact F].
    + intros K. destruct (B' K) as [Bb Bx].
      assert (K1 : c_kind (s_c s1) <> KPlain).
      { assert (X : c_kind (s_c (teardown s1)) = c_kind (s_c s1)) by (unfold teardown; destruct (c_kind (s_c s1)) eqn:Z; assumption). rewrite <- E in X. congruence. }
      destruct (O3 K1) as [Z1 Z2]. split.
      * intros b Hb. destruct Bb as [Bb|[_ Bb]]; [congruence|exact (Bb b Hb)].
      * intros i Hi. destruct Bx as [Bx|[_ Bx]]; [congruence|exact (Bx i Hi)].
Qed.
