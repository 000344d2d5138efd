(** Descriptors are only lost by overwriting them. *)

From Coq Require Import Ascii String List NArith ZArith Bool Lia ZifyBool ZifyNat ZifyN.
From Verif Require Import Base Lib ModelUtil ModelBase64 ModelAddress ModelAttachment
  ModelErrors ModelReply ModelMessage ModelState ModelClient ModelWorld
  ProofSteps ProofWalk ProofPhases ProofEstablish ProofLog ProofSend ProofWorld
  SpecLife ProofMail ProofLife SpecOwn ProofOwn.
Import ListNotations.
Open Scope Z_scope.

(** ** The phases of a sending operation *)

Definition nosock (l : label) : Prop := match l with LSocket => False | _ => True end.
(** The same without marking the client connected. *)
Definition opening (l : label) : Prop := match l with LSocket | LConn | LNull | LNewLog => False | _ => True end.

Lemma opening_base : forall l, base l -> opening l.
Proof. intros []; simpl; tauto. Qed.
Lemma opening_nosock : forall l, opening l -> nosock l.
Proof. intros []; simpl; tauto. Qed.
Lemma stay_nosock : forall l, stay l -> nosock l.
Proof. intros []; simpl; tauto. Qed.

Definition rest (k : clientkind) : M Z :=
  match k with KPlain => plain_rest | KOpp => opp_rest | KForced => forced_rest end.

Lemma establish_eq : forall s, establish s =
  (r <- initializeSession;; if negb (r =? 0) then ret r else rest (c_kind (s_c s))) s.
Proof. intros s. unfold establish, bind at 1, getc. destruct (c_kind (s_c s)); reflexivity. Qed.

Lemma rest_walk : forall s, c_conn (s_c s) = false -> walk opening (rest (c_kind (s_c s))) s.
Proof.
  intros s Cn. assert (Q : quit_ok opening s) by (apply disconnected_quit; assumption).
  destruct (c_kind (s_c s)) eqn:K; cbn [rest].
  - apply wplain_rest; try exact I; auto; [apply opening_base|]. intros; exact I.
  - apply wopp_rest; try exact I; auto; [apply opening_base|]. intros. destruct (c_rawptr _); exact I.
  - apply wforced_rest; try exact I; auto; [apply opening_base|congruence|]. intros. destruct (c_rawptr _); exact I.
Qed.

Definition opened (r : sock_res) (l : list sock_res) (s : st) : st :=
  mkSt (set_sock (match r with SkFd n => Z.of_N n | SkErr _ => -1 end)
          (set_log (Some (mkLog [] INITIAL_COMM_LOG_LENGTH)) INITIAL_COMM_LOG_LENGTH (s_c s)))
       (set_esock l (s_e s)) (s_t s ++ [EvSocket r]).

Lemma calm_opening : forall l, calm l -> opening l.
Proof. intros []; simpl; tauto. Qed.

Lemma initialize_phases : forall s,
  match e_sock (s_e s) with
  | [] => fst (initializeSession s) = Blocked /\ s_t (snd (initializeSession s)) = s_t s /\
          c_sock (s_c (snd (initializeSession s))) = c_sock (s_c s) /\ c_conn (s_c (snd (initializeSession s))) = c_conn (s_c s)
  | r :: l => steps calm (opened r l s) (snd (initializeSession s))
  end.
Proof.
  intros s.
  assert (E : initializeSession s = initializeSessionPOSIX (mkSt (set_log (Some (mkLog [] INITIAL_COMM_LOG_LENGTH)) INITIAL_COMM_LOG_LENGTH (s_c s)) (s_e s) (s_t s))) by reflexivity.
  rewrite E, session_eq. cbn [s_c s_e s_t].
  destruct (e_sock (s_e s)) as [|[n|er] l].
  - repeat split.
  - match goal with |- steps _ _ (snd (session_tail ?x)) => destruct (walk_session_tail calm I I I I I x) as [W _] end. exact W.
  - match goal with |- steps _ _ (snd (bind ?a ?b ?x)) => assert (W : walk calm (bind a b) x) end.
    { apply walk_bind; [apply (walk_log_errno calm I I)|intros; apply walk_ret]. }
    destruct W as [W _]. exact W.
Qed.

Lemma steps_conn_off : forall s s', steps opening s s' -> c_conn (s_c s) = false -> c_conn (s_c s') = false.
Proof.
  intros s s' H. induction H as [|l s1 s2 s3 E Hl S IH]; [auto|]. intros C. apply IH.
  destruct E; try destruct Hl; try exact C; try reflexivity.
  - apply addLog_core in H as (Hc & _). change (c_conn (core (s_c s')) = false). rewrite Hc. exact C.
  - apply teardown_off.
Qed.

(** Establishing a connection opens one socket, first. *)
Lemma establish_phases : forall s, c_conn (s_c s) = false ->
  match e_sock (s_e s) with
  | [] => fst (establish s) = Blocked /\ s_t (snd (establish s)) = s_t s /\
          c_sock (s_c (snd (establish s))) = c_sock (s_c s) /\ c_conn (s_c (snd (establish s))) = false
  | r :: l => steps opening (opened r l s) (snd (establish s))
  end.
Proof.
  intros s Cn. rewrite establish_eq. assert (H := initialize_phases s). unfold bind.
  destruct (initializeSession s) as [o s1] eqn:E1. cbn [fst snd] in *.
  destruct (e_sock (s_e s)) as [|r l] eqn:Es.
  - destruct H as (-> & T & F & C). rewrite <- Cn. auto.
  - assert (H' : steps opening (opened r l s) s1) by (eapply steps_mono; [exact H|apply calm_opening]).
    destruct o as [a| | | | |]; try exact H'. destruct (negb (a =? 0)); [exact H'|].
    apply initialize_core in E1 as (C1 & _). apply core_s_fields in C1.
    assert (K : c_kind (s_c s) = c_kind (s_c s1)) by intuition congruence. rewrite K.
    destruct (rest_walk s1) as [W _]; [intuition congruence|].
    eapply steps_trans; [exact H'|exact W].
Qed.

Lemma transaction_nosock : forall m s, steps nosock s (snd ((updc (set_conn true);; mail_transaction m) s)).
Proof.
  intros m s. assert (W : walk nosock (updc (set_conn true);; mail_transaction m) s).
  { apply walk_bind; [eapply walk_updc; [apply es_conn|exact I]|]. intros u s1 _ _.
    eapply walk_mono; [apply stay_transaction|apply stay_nosock]. }
  apply W.
Qed.

Lemma send_phases : forall m s, 
  match c_conn (s_c s), e_sock (s_e s) with
  | true, _ => steps nosock s (snd (sendMail m s))
  | false, [] => s_t (snd (sendMail m s)) = s_t s /\ c_sock (s_c (snd (sendMail m s))) = c_sock (s_c s)
  | false, r :: l => steps nosock (opened r l s) (snd (sendMail m s))
  end.
Proof.
  intros m s. destruct (c_conn (s_c s)) eqn:Cn.
  - rewrite kept_send by assumption. destruct (stay_transaction m s) as [W _]. eapply steps_mono; [exact W|apply stay_nosock].
  - assert (H := establish_phases s Cn).
    assert (E : sendMail m s = bind establish (fun r => if negb (r =? 0) then ret r else updc (set_conn true);; mail_transaction m) s).
    { unfold sendMail, bind at 1, getc. rewrite Cn. reflexivity. }
    rewrite E. clear E. match goal with |- context [bind establish ?f] => remember f as k eqn:Ek end. unfold bind.
    destruct (establish s) as [o s1]. cbn [fst snd] in H. destruct (e_sock (s_e s)) as [|r l].
    + destruct H as (-> & T & F & _). cbn [snd]. auto.
    + assert (H' : steps nosock (opened r l s) s1) by (eapply steps_mono; [exact H|apply opening_nosock]).
      destruct o; try exact H'. subst k. destruct (negb (a =? 0)); [exact H'|]. eapply steps_trans; [exact H'|apply transaction_nosock].
Qed.

(** After the mail transaction has begun, the client is connected or holds no
    socket. *)
Lemma stay_state : forall s s', steps stay s s' -> c_conn (s_c s) = true \/ c_sock (s_c s) = 0 ->
  c_conn (s_c s') = true \/ c_sock (s_c s') = 0.
Proof.
  intros s s' H. induction H as [|l s1 s2 s3 E Hl S IH]; [auto|]. intros C. apply IH.
  destruct (estep_stay _ _ _ E Hl) as (t & _ & _ & [[-> _]|(C1 & F1 & _)]).
  - right. apply teardown_off.
  - rewrite C1, F1. exact C.
Qed.
Lemma send_state : forall m s s', sendMail m s = (Done 0, s') -> ~ half_open (s_c s').
Proof.
  intros m s s' H. unfold sendMail in H. apply bind_done in H as (c & s0 & H0 & H). inversion H0; subst; clear H0.
  apply bind_done in H as (r & s1 & H1 & H). destruct (r =? 0) eqn:R; cbn [negb] in H; [|apply ret_done in H as [X _]; lia].
  apply bind_done in H as (u & s2 & H2 & H). inversion H2; subst; clear H2.
  match type of H with mail_transaction m ?x = _ => destruct (stay_transaction m x) as [W _] end.
  rewrite H in W. cbn [snd] in W. intros [X Y]. destruct (stay_state _ _ W); [left; reflexivity|congruence|congruence].
Qed.

(** ** Nothing is lost *)

Definition kept_open (O : list Z) (s : st) : Prop :=
  forall x, In x (open_in sockets (s_t s)) -> x <> 0 -> In x O \/ x = c_sock (s_c s).

Lemma open_pos : forall t x, In x (open_in sockets t) -> 0 <= x.
Proof.
  intros t x H. apply open_acquired in H as (ev & _ & H). destruct ev as [[n|] | | | | | | | | | | | | | | | | |]; simpl in H; try destruct H as [<-|[]]; try destruct H. lia.
Qed.

Lemma quiet_open : forall t l, Forall (quiet sockets) l -> forall x, In x (open_in sockets (t ++ l)) <-> In x (open_in sockets t).
Proof.
  intros t l H. revert t. induction H as [|ev l Q H IH]; intros t x; [rewrite app_nil_r; reflexivity|].
  replace (t ++ ev :: l) with ((t ++ [ev]) ++ l) by (rewrite <- app_assoc; reflexivity).
  rewrite IH. apply open_quiet. exact Q.
Qed.

Lemma estep_shape2 : forall l s s', estep l s s' -> nosock l ->
  s' = teardown s \/ (c_sock (s_c s') = c_sock (s_c s) /\ exists t, s_t s' = s_t s ++ t /\ Forall (quiet sockets) t).
Proof.
  intros l s s' E H.
  assert (Z : forall (c' : client) e', c_sock c' = c_sock (s_c s) -> 
    c_sock (s_c (mkSt c' e' (s_t s))) = c_sock (s_c s) /\ exists t, s_t (mkSt c' e' (s_t s)) = s_t s ++ t /\ Forall (quiet sockets) t).
  { intros c' e' F. split; [exact F|]. exists []. rewrite app_nil_r. split; [reflexivity|constructor]. }
  assert (Y : forall (c' : client) e' ev, c_sock c' = c_sock (s_c s) -> quiet sockets ev ->
    c_sock (s_c (mkSt c' e' (s_t s ++ [ev]))) = c_sock (s_c s) /\ exists t, s_t (mkSt c' e' (s_t s ++ [ev])) = s_t s ++ t /\ Forall (quiet sockets) t).
  { intros c' e' ev F Q. split; [exact F|]. exists [ev]. split; [reflexivity|repeat constructor; apply Q]. }
  destruct E; try destruct H; try (left; reflexivity); right; try (apply Z; reflexivity);
    try (apply Y; [reflexivity|quiet_tac]); try (destruct H0; apply Y; [reflexivity|quiet_tac]).
  - apply addLog_core in H0 as (Hc & _ & Ht & _). core_facts Hc. destruct s' as [c' e' t']. cbn [s_c s_e s_t] in *. subst t'. apply (Z c' e').
    assumption.
  - apply Y; [reflexivity|]. destruct H0; quiet_tac.
  - apply Y; [reflexivity|]. destruct H0; quiet_tac.
  - apply Y; [reflexivity|]. destruct H0; quiet_tac.
Qed.

Lemma teardown_kept : forall O s, kept_open O s -> kept_open O (teardown s).
Proof.
  intros O s H x Hx N. destruct (teardown_off s) as (_ & F & _). left.
  assert (Q : exists q, s_t (teardown s) = (s_t s ++ q) ++ sock_free (s_c s) /\ Forall (quiet sockets) q).
  { unfold teardown, sock_free. destruct (c_kind (s_c s)); cbn [s_t].
    - exists []. rewrite app_nil_r. split; [reflexivity|constructor].
    - exists (ctx_free (s_c s) ++ bio_free (s_c s)). split; [rewrite <- !app_assoc; reflexivity|].
      unfold ctx_free, bio_free. apply Forall_app. destruct (c_ctx (s_c s)), (c_bio (s_c s)); repeat constructor.
    - exists (ctx_free (s_c s) ++ bio_free (s_c s)). split; [rewrite <- !app_assoc; reflexivity|].
      unfold ctx_free, bio_free. apply Forall_app. destruct (c_ctx (s_c s)), (c_bio (s_c s)); repeat constructor. }
  destruct Q as (q & T & Q). rewrite T in Hx. unfold sock_free in Hx.
  destruct (c_sock (s_c s) =? 0) eqn:Z0.
  - rewrite app_nil_r in Hx. apply (proj1 (quiet_open (s_t s) _ Q x)) in Hx. destruct (H x Hx N) as [X|X]; [exact X|]. lia.
  - rewrite open_snoc, in_open_after in Hx. destruct Hx as [[]|[Hx R]]. apply (proj1 (quiet_open (s_t s) _ Q x)) in Hx.
    destruct (H x Hx N) as [X|X]; [exact X|]. exfalso. apply open_pos in Hx. apply R. simpl.
    destruct (c_sock (s_c s) <? 0) eqn:L; [lia|]. left. congruence.
Qed.

Lemma steps_kept : forall O s s', steps nosock s s' -> kept_open O s -> kept_open O s'.
Proof.
  intros O s s' H. apply (steps_inv nosock (kept_open O)); [|exact H].
  intros l a b Hl E Ha. destruct (estep_shape2 _ _ _ E Hl) as [->|(F & t & T & Q)]; [apply teardown_kept; exact Ha|].
  intros x Hx N. rewrite T in Hx. apply (proj1 (quiet_open (s_t a) _ Q x)) in Hx. rewrite F. exact (Ha x Hx N).
Qed.

Lemma send_kept : forall O m s, ~ half_open (s_c s) -> kept_open O s -> kept_open O (snd (sendMail m s)).
Proof.
  intros O m s Hh Hk. assert (H := send_phases m s). unfold half_open in Hh. destruct (c_conn (s_c s)).
  - eapply steps_kept; eauto.
  - assert (F : c_sock (s_c s) = 0) by (destruct (Z.eq_dec (c_sock (s_c s)) 0); tauto).
    destruct (e_sock (s_e s)) as [|r l].
    + destruct H as [T F']. intros x Hx N. rewrite T in Hx. rewrite F'. exact (Hk x Hx N).
    + eapply steps_kept; [exact H|]. clear H. intros x Hx N. unfold opened in *. cbn [s_t s_c] in *. rewrite open_snoc, in_open_after in Hx.
      destruct r as [n|er]; cbn [acquires releases sockets In] in Hx.
      * destruct Hx as [[<-|[]]|[Hx _]]; [right; reflexivity|]. destruct (Hk x Hx N) as [X|X]; [left; exact X|].
        exfalso. apply N. rewrite X. exact F.
      * destruct Hx as [[]|[Hx _]]. destruct (Hk x Hx N) as [X|X]; [left; exact X|]. exfalso. apply N. rewrite X. exact F.
Qed.
Lemma destroy_kept : forall O s, kept_open O s -> kept_open O (snd (destroy s)).
Proof.
  intros O s Hk. assert (W : walk stay destroy s).
  { unfold destroy. apply walk_bind; [apply stay_cleanup|intros; apply walk_ret]. }
  eapply steps_kept; [|exact Hk]. eapply steps_mono; [apply W|apply stay_nosock].
Qed.
Lemma destroy_off : forall s, fst (destroy s) = Done 0 -> c_sock (s_c (snd (destroy s))) = 0.
Proof.
  intros s H. unfold destroy, bind in *. destruct (cleanup s) as [o s1] eqn:E. destruct o; try discriminate H.
  apply cleanup_off in E as (s2 & ->). apply teardown_off.
Qed.

(** ** Histories *)

Definition owned (w : world) : Prop := forall x, In x (open_in sockets (w_trace w)) -> x <> 0 ->
  In x (held sockets (w_clients w)).

Lemma socks_refers : forall c x, x <> 0 -> 0 <= x -> x = c_sock c -> In x (refers sockets c).
Proof. intros c x N P ->. simpl. destruct (c_sock c <=? 0) eqn:E; [lia|left; reflexivity]. Qed.
Lemma refers_sock : forall c x, In x (refers sockets c) -> x = c_sock c.
Proof. intros c x H. simpl in H. destruct (c_sock c <=? 0); [destruct H|]. destruct H as [<-|[]]. reflexivity. Qed.

Lemma owned_run_on : forall i (m : M Z) f w x w',
  (forall c, f c = Some c \/ f c = None) ->
  (forall O c, get_client w i = Some c -> kept_open O (mkSt c (w_env w) (w_trace w)) ->
     kept_open O (snd (m (mkSt c (w_env w) (w_trace w))))) ->
  (forall c, get_client w i = Some c -> fst (m (mkSt c (w_env w) (w_trace w))) = x ->
     f (s_c (snd (m (mkSt c (w_env w) (w_trace w))))) = None -> c_sock (s_c (snd (m (mkSt c (w_env w) (w_trace w))))) = 0) ->
  run_on i m f w = (x, w') -> owned w -> owned w'.
Proof.
  intros i m f w x w' Hf Hm Hc H Ho. unfold run_on in H.
  destruct (get_client w i) as [c|] eqn:E; [|inversion H; subst; exact Ho].
  assert (Hm' := Hm (held sockets (w_clients (put_client i None w))) c eq_refl). assert (Hc' := Hc c eq_refl). clear Hm Hc.
  apply get_split in E as (l1 & l2 & El & _ & Es).
  assert (X : kept_open (held sockets (w_clients (put_client i None w))) (mkSt c (w_env w) (w_trace w))).
  { intros y Hy N. simpl in *. specialize (Ho y Hy N). rewrite Es, held_app. simpl. rewrite El, held_app in Ho. simpl in Ho.
    rewrite !in_app_iff in *. destruct Ho as [Z|[Z|Z]]; auto. right. apply refers_sock. exact Z. }
  specialize (Hm' X). destruct (m (mkSt c (w_env w) (w_trace w))) as [o s] eqn:Em. inversion H; subst. cbn [fst snd] in *.
  intros y Hy N. simpl in *. rewrite Es, held_app. simpl. destruct (Hm' y Hy N) as [Y|Y].
  - rewrite Es, held_app in Y. simpl in Y. rewrite !in_app_iff in *. tauto.
  - rewrite !in_app_iff. right. left. destruct (Hf (s_c s)) as [F|F]; rewrite F in *.
    + simpl. apply (socks_refers _ y N); [eapply open_pos; eauto|exact Y].
    + exfalso. apply N. rewrite Y. apply Hc'; reflexivity.
Qed.

Lemma owned_put : forall w i c c', get_client w i = Some c -> (forall x, In x (refers sockets c) -> In x (refers' sockets c')) ->
  owned w -> owned (put_client i c' w).
Proof.
  intros w i c c' E H Ho x Hx N. specialize (Ho x Hx N). apply get_split in E as (l1 & l2 & El & _ & Es).
  simpl. rewrite Es, held_app. simpl. rewrite El, held_app in Ho. simpl in Ho. rewrite !in_app_iff in *. intuition.
Qed.
Lemma owned_alter : forall i f w x w', (forall c c', get_client w i = Some c -> f c = Done c' -> forall y, In y (refers sockets c) -> In y (refers sockets c')) ->
  alter i f w = (x, w') -> owned w -> owned w'.
Proof.
  intros i f w x w' H C g. unfold alter in C. destruct (get_client w i) as [c|] eqn:E; [|inversion C; subst; exact g].
  destruct (f c) as [c'| | | | |] eqn:F; inversion C; subst; try exact g.
  eapply owned_put; eauto.
Qed.
Lemma owned_push : forall w c, owned w -> owned (push_client c w).
Proof. intros w c H x Hx N. rewrite held_push. apply in_app_iff. left. exact (H x Hx N). Qed.
Lemma owned_create : forall o w x w', create o w = (x, w') -> owned w -> owned w'.
Proof.
  intros o w x w' C g. unfold create in C. destruct o; inversion C; subst; try exact g. apply owned_push. exact g.
Qed.

Lemma held_in : forall w x, In x (held sockets (w_clients w)) -> exists i c, get_client w i = Some c /\ In x (refers sockets c).
Proof.
  intros w x H. unfold held in H. apply in_flat_map in H as ([c|] & Hc & Hx); [|destruct Hx].
  apply In_nth_error in Hc as [i Hi]. exists i, c. split; [|exact Hx]. unfold get_client. rewrite Hi. reflexivity.
Qed.
Lemma get_put_eq : forall w i c v, get_client w i = Some c -> get_client (put_client i (Some v) w) i = Some v.
Proof.
  intros w i c v H. unfold get_client, put_client in *. simpl. rewrite nth_list_set, Nat.eqb_refl.
  destruct (nth_error (w_clients w) i) eqn:E; [|discriminate H].
  assert (L : (i < length (w_clients w))%nat) by (apply nth_error_Some; congruence).
  apply Nat.ltb_lt in L. rewrite L. reflexivity.
Qed.

Lemma owned_step : forall o w x w', step o w = (x, w') -> (forall i, o = ODestroy i -> x = Done 0) -> careful_op o w -> owned w -> owned w'.
Proof.
  intros o w x w' H Cx Hc Ho. destruct o; cbn [step careful_op] in *; try (eapply owned_alter; [|exact H|exact Ho]; intros c1 c2 _ A y).
  - eapply owned_create; eauto.
  - destruct (get_client w src); [eapply owned_create; eauto|inversion H; subst; exact Ho].
  - destruct (get_client w src) as [c|] eqn:E; [|inversion H; subst; exact Ho]. inversion H; subst.
    intros y Hy N. specialize (Ho y Hy N). apply get_split in E as (l1 & l2 & El & _ & Es).
    rewrite held_push. simpl w_clients. rewrite Es, held_app. simpl. rewrite El, held_app in Ho. simpl in Ho.
    rewrite !in_app_iff in *. simpl in *. tauto.
  - destruct (get_client w dst) as [d|] eqn:Ed; [|inversion H; subst; exact Ho].
    destruct (get_client w src) as [c|] eqn:E; [|inversion H; subst; exact Ho].
    destruct (Nat.eqb dst src) eqn:Ne; [inversion H; subst; exact Ho|]. apply Nat.eqb_neq in Ne.
    destruct (kind_eqb _ _); [|inversion H; subst; exact Ho].
    eapply owned_alter; [|exact H|exact Ho]. intros c0 c' G _ y. rewrite Ed in G. inversion G; subst.
    rewrite (Hc Ne _ eq_refl). intros [].
  - destruct (get_client w dst) as [d|] eqn:Ed; [|inversion H; subst; exact Ho].
    destruct (get_client w src) as [c|] eqn:E; [|inversion H; subst; exact Ho].
    destruct (Nat.eqb dst src) eqn:Ne; [inversion H; subst; exact Ho|]. apply Nat.eqb_neq in Ne.
    destruct (kind_eqb _ _); [|inversion H; subst; exact Ho]. inversion H; subst. clear H.
    specialize (Hc Ne _ eq_refl).
    intros y Hy N. specialize (Ho y Hy N). apply held_in in Ho as (k & c0 & Gk & Hk).
    set (w1 := put_client dst (Some (client_move_assign d c)) w).
    assert (G1 : get_client w1 dst = Some (client_move_assign d c)) by (eapply get_put_eq; eauto).
    assert (G2 : get_client w1 src = Some c) by (eapply get_split2; eauto).
    destruct (Nat.eq_dec k dst) as [->|Nd].
    { rewrite Ed in Gk. inversion Gk; subst c0. rewrite Hc in Hk. destruct Hk. }
    destruct (Nat.eq_dec k src) as [->|Ns].
    + rewrite E in Gk. inversion Gk; subst c0. apply (in_held sockets _ dst (client_move_assign d c)); [|exact Hk].
      eapply get_split2; [|exact G2|exact G1]. auto.
    + apply (in_held sockets _ k c0); [|exact Hk].
      eapply get_split2; [|exact G2|]; [auto|]. eapply get_split2; [|exact Ed|exact Gk]. auto.
  - eapply (owned_run_on i (sendMail m) Some); [auto| | |exact H|exact Ho].
    + intros O c G Hk. apply send_kept; auto.
    + intros c G _ F. discriminate F.
  - unfold client_setServerName, obind in A. destruct (check_server_name server); try discriminate A. injection A as <-. auto.
  - injection A as <-. auto.
  - injection A as <-. auto.
  - injection A as <-. auto.
  - injection A as <-. auto.
  - injection A as <-. auto.
  - assert (c2 = set_selfsigned b c1) as -> by (cbv beta in A; destruct (c_kind c1); [discriminate A|injection A as <-; reflexivity|injection A as <-; reflexivity]). auto.
  - eapply (owned_run_on i destroy (fun _ => None)); [auto| | |exact H|exact Ho].
    + intros O c G Hk. apply destroy_kept; auto.
    + intros c G F _. apply destroy_off. rewrite F. eapply Cx. reflexivity.
Qed.

Lemma owned_run : forall ops w, careful ops w -> destroyed_ok ops (fst (run ops w)) -> owned w -> owned (snd (run ops w)).
Proof.
  induction ops as [|o ops IH]; intros w Hc Hx Ho; [exact Ho|]. cbn [run] in *.
  assert (H0 : careful_op o w) by exact (Hc [] o ops eq_refl).
  destruct (step o w) as [x w1] eqn:E.
  assert (O1 : owned w1).
  { eapply owned_step; eauto. intros i ->. apply (Hx 0%nat i x eq_refl).
    destruct (continues x); [destruct (run ops w1)|]; reflexivity. }
  destruct (continues x) eqn:Cx; [|exact O1].
  assert (X := IH w1). destruct (run ops w1) as [xs w2] eqn:R. cbn [fst snd] in *.
  apply X; [| |exact O1].
  - intros before o' after Eq. specialize (Hc (o :: before) o' after). cbn [app run] in Hc. rewrite E, Cx in Hc.
    destruct (run before w1) as [ys w3] eqn:R3. cbn [snd] in *. apply Hc. rewrite Eq. reflexivity.
  - intros k i y H1 H2. exact (Hx (S k) i y H1 H2).
Qed.

Lemma no_leak : forall e ops, careful ops (initial_world e) -> destroyed_ok ops (fst (run ops (initial_world e))) ->
  nothing_lost (snd (run ops (initial_world e))).
Proof.
  intros e ops Hc Hx x H N. apply held_in. apply owned_run; auto. intros y [].
Qed.

(** ** Programs in which every mail is accepted *)
Definition settled (w : world) : Prop := forall i c, get_client w i = Some c -> ~ half_open c.

Lemma settled_step : forall o w x w', step o w = (x, w') ->
  (forall i m, o = OSend i m -> get_client w i <> None -> x = Done 0) -> settled w -> settled w'.
Proof.
  intros o w x w' H Hx Hs i c G.
  assert (F : forall c c', c_conn c' = c_conn c -> c_sock c' = c_sock c -> ~ half_open c -> ~ half_open c').
  { intros a b E1 E2 X. unfold half_open. rewrite E1, E2. exact X. }
  assert (Z : forall c, c_sock c = 0 -> ~ half_open c) by (intros a E [_ X]; contradiction).
  pose proof (step_origin _ _ _ _ _ _ H G) as O.
  destruct O as [i c0 E|i k p n c0 Eo E|i j c0 c' Eo E E2|i j c0 Eo E|i j c0 Eo E|i j d c0 c' Eo E E2 _ _ E3|i j d c0 Eo E E2 _ _|i j d c0 Eo E E2 _
    |i m c0 Eo E|i p c0 c' Eo E E2|i n c0 Eo E|i b c0 Eo E|i n c0 Eo E|i cr c0 Eo E|i b c0 Eo E|i b c0 Eo E _];
    try (apply Z; reflexivity); try (apply (F c0); [reflexivity|reflexivity|eapply Hs; eassumption]).
  - unfold client_new in E. destruct (check_server_name p); try discriminate E. injection E as <-. apply Z. reflexivity.
  - unfold client_copy in E2. destruct (c_server c0); try discriminate E2. injection E2 as <-. apply Z. reflexivity.
  - unfold client_assign in E3. destruct (c_server c0); try discriminate E3. injection E3 as <-. apply Z. reflexivity.
  - assert (x = Done 0) as -> by (eapply Hx; [exact Eo|congruence]). subst o.
    cbn [step] in H. unfold run_on in H. rewrite E in H.
    destruct (sendMail m (mkSt c0 (w_env w) (w_trace w))) as [o s] eqn:Es. inversion H; subst. eapply send_state; eauto.
  - unfold client_setServerName, obind in E2. destruct (check_server_name p); try discriminate E2. injection E2 as <-.
    apply (F c0); [reflexivity|reflexivity|eapply Hs; eassumption].
Qed.

Lemma sent_careful : forall ops w, settled w ->
  (forall i j, ~ In (OCopyAssign i j) ops) -> (forall i j, ~ In (OMoveAssign i j) ops) ->
  all_sent ops (fst (run ops w)) -> careful ops w.
Proof.
  induction ops as [|o ops IH]; intros w Hs H1 H2 Ha before o' after Eq; [destruct before; discriminate Eq|].
  destruct before as [|o0 before]; inversion Eq; subst.
  - cbn [run snd]. destruct o'; cbn [careful_op]; try exact I.
    + exfalso. eapply H1. left. reflexivity.
    + exfalso. eapply H2. left. reflexivity.
    + intros c G. eapply Hs; eauto.
  - cbn [run] in *. destruct (step o0 w) as [x w1] eqn:E.
    assert (S1 : settled w1).
    { eapply settled_step; eauto. intros i m -> _. apply (Ha 0%nat i m x eq_refl).
      destruct (continues x); [destruct (run (before ++ o' :: after) w1)|]; reflexivity. }
    destruct (continues x) eqn:Cx.
    + assert (X := IH w1 S1). destruct (run (before ++ o' :: after) w1) as [xs w2]. cbn [fst snd] in *.
      specialize (X ltac:(intros i j Z; apply (H1 i j); right; exact Z) ltac:(intros i j Z; apply (H2 i j); right; exact Z)).
      assert (Y := X ltac:(intros k i m y K1 K2; exact (Ha (S k) i m y K1 K2)) before o' after eq_refl).
      destruct (run before w1) as [ys w3]. exact Y.
    + cbn [snd]. destruct o'; cbn [careful_op]; try exact I.
      * exfalso. eapply H1. right. apply in_or_app. right. left. reflexivity.
      * exfalso. eapply H2. right. apply in_or_app. right. left. reflexivity.
      * intros c G. eapply S1; eauto.
Qed.

Lemma no_leak_sent : forall e ops,
  (forall i j, ~ In (OCopyAssign i j) ops) -> (forall i j, ~ In (OMoveAssign i j) ops) ->
  all_sent ops (fst (run ops (initial_world e))) -> destroyed_ok ops (fst (run ops (initial_world e))) ->
  nothing_lost (snd (run ops (initial_world e))).
Proof.
  intros e ops H1 H2 Ha Hd. apply no_leak; [|exact Hd]. apply sent_careful; auto.
  intros i c H. unfold get_client in H. simpl in H. destruct i; discriminate H.
Qed.
