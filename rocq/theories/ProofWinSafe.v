(** Programs built for Windows: invariants of histories, undefined behaviour
    and the communication log (compare ProofWorld.v and ProofSafety.v). *)

From Coq Require Import Ascii String List NArith ZArith Bool Lia ZifyBool ZifyNat ZifyN.
From Verif Require Import Base Lib ModelUtil ModelBase64 ModelAddress ModelAttachment
  ModelErrors ModelReply ModelMessage ModelState ModelClient ModelWorld SpecText SpecMime SpecSafety
  ProofText ProofSteps ProofWalk ProofPhases ProofEstablish ProofLog ProofSend ProofWorld ProofSafety
  ModelWin ProofWinWalk ProofWinWalk2 ProofWinEst SpecWinSafe.
Import ListNotations.
Open Scope Z_scope.

(** ** One operation *)

Definition acts (o : op) : bool := match o with OSend _ _ | ODestroy _ => true | _ => false end.
(** The POSIX world with the same clients. *)
Definition pw (w : wworld) : world := mkWorld (w_clients (ww w)) (w_env (ww w)) (socks (ww_trace w)).

Lemma get_pw : forall w i, get_client (pw w) i = get_client (ww w) i.
Proof. reflexivity. Qed.

Definition retrace (t : list event) (w : world) : world := mkWorld (w_clients w) (w_env w) t.
Lemma step_retrace : forall o w t, acts o = false ->
  step o (retrace t w) = (fst (step o w), retrace t (snd (step o w))).
Proof.
  intros o w t H.
  assert (A : forall i f, alter i f (retrace t w) = (fst (alter i f w), retrace t (snd (alter i f w)))).
  { intros i f. unfold alter. change (get_client (retrace t w) i) with (get_client w i).
    destruct (get_client w i) as [c|]; [|reflexivity]. destruct (f c); reflexivity. }
  assert (C : forall oc, create oc (retrace t w) = (fst (create oc w), retrace t (snd (create oc w)))).
  { intros oc. unfold create. destruct oc; reflexivity. }
  destruct o; try discriminate H; cbn [step]; try apply A; try apply C.
  - change (get_client (retrace t w) src) with (get_client w src). destruct (get_client w src); [apply C|reflexivity].
  - change (get_client (retrace t w) src) with (get_client w src). destruct (get_client w src); reflexivity.
  - change (get_client (retrace t w) src) with (get_client w src). change (get_client (retrace t w) dst) with (get_client w dst).
    destruct (get_client w dst); [|reflexivity]. destruct (get_client w src); [|reflexivity].
    destruct (Nat.eqb _ _); [reflexivity|]. destruct (kind_eqb _ _); [apply A|reflexivity].
  - change (get_client (retrace t w) src) with (get_client w src). change (get_client (retrace t w) dst) with (get_client w dst).
    destruct (get_client w dst); [|reflexivity]. destruct (get_client w src); [|reflexivity].
    destruct (Nat.eqb _ _); [reflexivity|]. destruct (kind_eqb _ _); reflexivity.
Qed.

Lemma wstep_other : forall o w x w', acts o = false -> wstep o w = (x, w') ->
  step o (pw w) = (x, pw w') /\ step o (ww w) = (x, ww w') /\ ww_trace w' = ww_trace w /\ ww_env w' = ww_env w /\
  ww_on w' = ww_on w ++ repeat false (length (w_clients (ww w')) - length (w_clients (ww w))).
Proof.
  intros o w x w' H S. unfold wstep in S.
  assert (R := step_retrace o (ww w) (socks (ww_trace w)) H). change (retrace (socks (ww_trace w)) (ww w)) with (pw w) in R.
  destruct o; try discriminate H; destruct (step _ (ww w)) as [y w1] eqn:E; inversion S; subst; rewrite R;
    repeat split; reflexivity.
Qed.

Definition wview (w : wworld) (i : nat) (c : client) : vst := mkV c (nth i (ww_on w) false) (w_env (ww w)) (ww_env w) (ww_trace w).

Lemma run_onW_some : forall {A} i (m : W A) f w c x w', get_client (ww w) i = Some c -> run_onW i m f w = (x, w') ->
  let v' := snd (m (wview w i c)) in
  x = fst (m (wview w i c)) /\ w_clients (ww w') = list_set (w_clients (ww w)) i (f (v_c v')) /\ w_env (ww w') = v_e v' /\
  ww_trace w' = v_t v' /\ ww_on w' = list_set (ww_on w) i (v_on v') /\ ww_env w' = v_w v'.
Proof.
  intros A i m f w c x w' G H. unfold run_onW in H. rewrite G in H. unfold wview.
  destruct (m _) as [o v]. inversion H; subst. repeat split; reflexivity.
Qed.
Lemma run_onW_none : forall {A} i (m : W A) f w x w', get_client (ww w) i = None -> run_onW i m f w = (x, w') -> x = Throw /\ w' = w.
Proof. intros A i m f w x w' G H. unfold run_onW in H. rewrite G in H. inversion H; auto. Qed.

Lemma get_set : forall (l : list (option client)) e t e' t' i v j c,
  get_client (mkWorld (list_set l i v) e t) j = Some c -> (j = i /\ v = Some c) \/ (j <> i /\ get_client (mkWorld l e' t') j = Some c).
Proof. intros l e t e' t' i v j c H. exact (get_put (mkWorld l e t) i v j c H). Qed.

Definition destroyW : W Z := cleanupW ;;# wret 0.
Definition empty_message : message := mkMsg Plaintext (mkAddr [] []) (AArr []) (AArr []) (AArr []) [] [] (AArr []).
Lemma destroyW_walk : forall v, wwalk (any_label empty_message) destroyW v.
Proof.
  intros v. unfold destroyW. apply ww_bind; [|intros; apply ww_ret]. eapply ww_mono; [apply any_cleanupW|apply any_weak].
Qed.
Lemma ww_trace_grows : forall {A} P (m : W A) v, wwalk P m v -> exists t, socks (v_t (snd (m v))) = socks (v_t v) ++ t.
Proof. intros A P m v [H _]. apply steps_trace in H. exact H. Qed.

(** ** Invariants *)

Lemma wrun_inv : forall (allowed : op -> Prop) (I : wworld -> Prop),
  (forall o w x w', allowed o -> wstep o w = (x, w') -> I w -> I w') ->
  forall ops w, (forall o, In o ops -> allowed o) -> I w -> I (snd (wrun ops w)).
Proof.
  intros allowed I H. induction ops as [|o ops IH]; intros w A Iw; [exact Iw|]. cbn [wrun].
  destruct (wstep o w) as [x w1] eqn:E.
  assert (I1 : I w1) by (eapply H; eauto; apply A; left; reflexivity).
  destruct (continues x); [|exact I1].
  assert (I2 : I (snd (wrun ops w1))) by (apply IH; [intros; apply A; right; assumption|exact I1]).
  destruct (wrun ops w1). exact I2.
Qed.
Lemma wrun_outcome : forall (allowed : op -> Prop) (I : wworld -> Prop) (Q : outcome Z -> wworld -> Prop),
  (forall o w x w', allowed o -> wstep o w = (x, w') -> I w -> I w') ->
  (forall o w x w', allowed o -> wstep o w = (x, w') -> I w -> continues x = false -> Q x w') ->
  forall ops w x, (forall o, In o ops -> allowed o) -> I w ->
  In x (fst (wrun ops w)) -> continues x = false -> Q x (snd (wrun ops w)).
Proof.
  intros allowed I Q H HQ. induction ops as [|o ops IH]; intros w x A Iw Hx Cx; [destruct Hx|].
  cbn [wrun] in *. destruct (wstep o w) as [y w1] eqn:E.
  assert (A1 : allowed o) by (apply A; left; reflexivity).
  assert (I1 : I w1) by (eapply H; eauto).
  destruct (continues y) eqn:Cy.
  - assert (X := IH w1 x ltac:(intros; apply A; right; assumption) I1). destruct (wrun ops w1) as [xs w2]. simpl in *.
    destruct Hx as [->|Hx]; [congruence|]. auto.
  - simpl in *. destruct Hx as [->|[]]. eapply HQ; eauto.
Qed.

(** What holds of every client between the operations of the POSIX build holds
    in the Windows build if sending preserves it there. *)
Lemma wall_clients : forall (Q : client -> list event -> Prop) o w x w',
  (forall c t t', Q c t -> Q c (t ++ t')) ->
  (forall w1 x w1', acts o = false -> step o w1 = (x, w1') -> all_clients Q w1 -> all_clients Q w1') ->
  (forall m v, Q (v_c v) (socks (v_t v)) -> Q (v_c (snd (sendMailW m v))) (socks (v_t (snd (sendMailW m v))))) ->
  wstep o w = (x, w') -> all_clients Q (pw w) -> all_clients Q (pw w').
Proof.
  intros Q o w x w' Mono Other Send S A. destruct (acts o) eqn:Ac.
  2:{ apply wstep_other in S as [S _]; [|assumption]. eapply Other; eauto. }
  assert (Run : forall i (m : W Z) f, run_onW i m f w = (x, w') -> (forall v, exists t, socks (v_t (snd (m v))) = socks (v_t v) ++ t) ->
    (forall v c, Q (v_c v) (socks (v_t v)) -> f (v_c (snd (m v))) = Some c -> Q c (socks (v_t (snd (m v))))) -> all_clients Q (pw w')).
  { intros i m f R G P j c H. destruct (get_client (ww w) i) as [c0|] eqn:G0.
    2:{ apply run_onW_none in R as [_ ->]; [|assumption]. eapply A; exact H. }
    apply (run_onW_some i m f w c0) in R as (_ & Cl & _ & T & _); [|assumption]. destruct (G (wview w i c0)) as [t Tt].
    unfold pw in *. cbn [w_trace]. rewrite T. rewrite Cl in H.
    apply (get_set _ _ _ (w_env (ww w)) (socks (ww_trace w))) in H as [[-> H]|[N H]].
    - eapply P; [|exact H]. apply (A i c0). exact G0.
    - rewrite Tt. apply Mono. apply (A j c). exact H. }
  destruct o; try discriminate Ac.
  - apply (Run i (sendMailW m) Some); [exact S| |].
    + intros v. eapply ww_trace_grows. apply sendMailW_walk.
    + intros v c H E. inversion E; subst. apply Send. assumption.
  - apply (Run i destroyW (fun _ => None)); [exact S| |].
    + intros v. eapply ww_trace_grows. apply destroyW_walk.
    + intros v c _ E. discriminate E.
Qed.

(** ** The log *)

Definition vfresh (v : vst) : vst :=
  mkV (set_log (Some (mkLog [] INITIAL_COMM_LOG_LENGTH)) INITIAL_COMM_LOG_LENGTH (v_c v)) (v_on v) (v_e v) (v_w v) (v_t v).
Lemma establishW_fresh : forall v, establishW v = establishW (vfresh v).
Proof.
  intros v. unfold establishW.
  assert (D : forall (k : client -> W Z) u, wbind (base getc) k u = k (v_c u) u).
  { intros k [uc uo ue uw ut]. unfold wbind, base, getc. cbn. rewrite app_nil_r. reflexivity. }
  rewrite !D. change (c_kind (v_c (vfresh v))) with (c_kind (v_c v)).
  assert (I : initializeSessionW v = initializeSessionW (vfresh v)) by (destruct v; reflexivity).
  destruct (c_kind (v_c v)).
  - unfold establishPlainW, wbind at 1. rewrite I. reflexivity.
  - unfold establishOppW, wbind at 1. rewrite I. reflexivity.
  - unfold establishForcedW, wbind at 1. rewrite I. reflexivity.
Qed.
Lemma sendMailW_fresh : forall m v, c_conn (v_c v) = false -> sendMailW m v = sendMailW m (vfresh v).
Proof.
  intros m v Cn. unfold sendMailW.
  assert (D : forall (k : client -> W Z) u, wbind (base getc) k u = k (v_c u) u).
  { intros k [uc uo ue uw ut]. unfold wbind, base, getc. cbn. rewrite app_nil_r. reflexivity. }
  rewrite !D. change (c_conn (v_c (vfresh v))) with (c_conn (v_c v)). rewrite Cn.
  unfold wbind. rewrite establishW_fresh. reflexivity.
Qed.
Lemma sendMailW_good : forall m v, (c_conn (v_c v) = true -> good_log (v_c v)) -> good_log (v_c (snd (sendMailW m v))).
Proof.
  intros m v H. destruct (c_conn (v_c v)) eqn:Cn.
  - apply (steps_good _ _ _ (proj1 (sendMailW_walk m v))). auto.
  - rewrite sendMailW_fresh by assumption. apply (steps_good _ _ _ (proj1 (sendMailW_walk m (vfresh v)))).
    apply (good_fresh (proj v)).
Qed.
Lemma good_not_log : forall P u s, good_log (s_c s) -> stuck P u s -> u <> UB_NullDeref PLog /\ u <> UB_BufferOverflow BufLog.
Proof.
  intros P u s G W. split; intros ->.
  - simpl in W. destruct G as (lg & L & _). congruence.
  - destruct W as (item & prefix & X).
    destruct (addLog_good item prefix _ G) as [Y|(lg & lg' & n & _ & _ & Y & _)]; rewrite Y in X; discriminate X.
Qed.

(** ** Undefined behaviour *)

Section Program.
Variable ops : list op.

Lemma fit_sendW : forall m v, fit ops (v_c v) (socks (v_t v)) ->
  fit ops (v_c (snd (sendMailW m v))) (socks (v_t (snd (sendMailW m v)))).
Proof.
  intros m v F. apply (fit_steps ops _ _ _ (proj1 (sendMailW_walk m v)) F). intros _. apply sendMailW_good. apply F.
Qed.
Lemma fit_wstep : forall o w x w', In o ops -> wstep o w = (x, w') -> all_clients (fit ops) (pw w) -> all_clients (fit ops) (pw w').
Proof.
  intros o w x w' Ho S A. eapply wall_clients; [| | |exact S|exact A].
  - intros. apply fit_app. assumption.
  - intros w1 y w1' _ S1. apply (fit_step ops o w1 y w1' Ho S1).
  - apply fit_sendW.
Qed.

(** A client that holds a reference to WinSock has a log that can be appended
    to, unless the program moves or assigns clients. *)
Definition startable (w : wworld) : Prop := length (ww_on w) = length (w_clients (ww w)) /\
  ((exists o, In o ops /\ reassigns o = true) \/
   forall i c, get_client (ww w) i = Some c -> nth i (ww_on w) false = true -> good_log c).

Lemma nth_more : forall l n i, nth i (l ++ repeat false n) false = nth i l false.
Proof.
  intros l n i. destruct (Nat.lt_ge_cases i (length l)).
  - apply app_nth1. assumption.
  - rewrite app_nth2 by assumption. rewrite (nth_overflow l) by assumption.
    destruct (nth_in_or_default (i - length l) (repeat false n) false) as [H1|H1]; [|exact H1].
    apply repeat_spec in H1. exact H1.
Qed.
Lemma step_length : forall o w, (length (w_clients w) <= length (w_clients (snd (step o w))))%nat.
Proof.
  intros o w.
  assert (A : forall i f, (length (w_clients w) <= length (w_clients (snd (alter i f w))))%nat).
  { intros i f. unfold alter. destruct (get_client w i) as [c|]; [|simpl; lia]. destruct (f c); simpl; rewrite ?length_list_set; lia. }
  assert (C : forall oc, (length (w_clients w) <= length (w_clients (snd (create oc w))))%nat).
  { intros oc. unfold create. destruct oc; simpl; rewrite ?app_length; lia. }
  destruct o; cbn [step]; try apply A; try apply C.
  - destruct (get_client w src); [apply C|simpl; lia].
  - destruct (get_client w src); [|simpl; lia]. simpl. rewrite app_length, length_list_set. lia.
  - destruct (get_client w dst); [|simpl; lia]. destruct (get_client w src); [|simpl; lia].
    destruct (Nat.eqb _ _); [simpl; lia|]. destruct (kind_eqb _ _); [apply A|simpl; lia].
  - destruct (get_client w dst); [|simpl; lia]. destruct (get_client w src); [|simpl; lia].
    destruct (Nat.eqb _ _); [simpl; lia|]. destruct (kind_eqb _ _); [|simpl; lia]. simpl. rewrite !length_list_set. lia.
  - unfold run_on. destruct (get_client w i); [|simpl; lia]. destruct (sendMail _ _). simpl. rewrite length_list_set. lia.
  - unfold run_on. destruct (get_client w i); [|simpl; lia]. match goal with |- context [let '(o, s) := ?m in _] => destruct m end. simpl. rewrite length_list_set. lia.
Qed.
Lemma nth_on_set : forall l i (b : bool) j, nth j (list_set l i b) false = true ->
  (j = i /\ b = true /\ (i < length l)%nat) \/ (j <> i /\ nth j l false = true).
Proof.
  induction l as [|x l IH]; intros [|i] b [|j] H; simpl in *; try discriminate; auto.
  - left. repeat split; auto. lia.
  - destruct (IH _ _ _ H) as [(-> & -> & L)|[N X]]; [left; repeat split; auto; lia|right; split; [lia|assumption]].
Qed.

Lemma startable_wstep : forall o w x w', In o ops -> wstep o w = (x, w') -> all_clients (fit ops) (pw w) -> startable w -> startable w'.
Proof.
  intros o w x w' Ho S A [L H]. destruct (acts o) eqn:Ac.
  - assert (Run : forall i (m : W Z) f, run_onW i m f w = (x, w') ->
      (forall v c, fit ops (v_c v) (socks (v_t v)) -> f (v_c (snd (m v))) = Some c -> good_log c) -> startable w').
    { intros i m f R G. destruct (get_client (ww w) i) as [c0|] eqn:G0.
      2:{ apply run_onW_none in R as [_ ->]; [|assumption]. split; assumption. }
      apply (run_onW_some i m f w c0) in R as (_ & Cl & _ & _ & On & _); [|assumption].
      split; [rewrite On, Cl, !length_list_set; exact L|]. destruct H as [H|H]; [left; exact H|right].
      intros j c Gj Nj. rewrite On in Nj. unfold get_client in Gj. rewrite Cl in Gj.
      apply (get_set _ (w_env (ww w)) [] (w_env (ww w)) []) in Gj as [[-> Gj]|[N Gj]].
      - eapply G; [|exact Gj]. apply (A i c0). exact G0.
      - apply nth_on_set in Nj as [(-> & _)|[_ Nj]]; [congruence|]. apply (H j c); [exact Gj|exact Nj]. }
    destruct o; try discriminate Ac.
    + apply (Run i (sendMailW m) Some S). intros v c F E. inversion E; subst. apply sendMailW_good. apply F.
    + apply (Run i destroyW (fun _ => None) S). intros v c _ E. discriminate E.
  - apply wstep_other in S as (_ & S & _ & _ & On); [|assumption]. assert (G := step_length o (ww w)). rewrite S in G. cbn [snd] in G.
    split; [rewrite On, app_length, repeat_length; lia|]. destruct (reassigns o) eqn:R; [left; eauto|].
    destruct H as [H|H]; [left; exact H|right]. intros i c Gi Ni. rewrite On, nth_more in Ni.
    assert (Old : (i < length (w_clients (ww w)))%nat).
    { destruct (Nat.lt_ge_cases i (length (ww_on w))) as [X|X]; [lia|]. rewrite nth_overflow in Ni by assumption. discriminate Ni. }
    assert (Alt : forall j f, (forall c0 c1, f c0 = Done c1 -> good_log c0 -> good_log c1) -> alter j f (ww w) = (x, ww w') -> good_log c).
    { intros j f F E. destruct (alter_origin _ _ _ _ _ _ _ E Gi) as [X|[Ei (c0 & X & Y)]]; [apply (H i c X Ni)|].
      apply (F c0); [assumption|]. rewrite Ei in Ni. apply (H j c0 X Ni). }
    assert (Cre : forall oc, create oc (ww w) = (x, ww w') -> good_log c).
    { intros oc E. unfold create in E. destruct oc as [c1| | | | |]; inversion E as [[E1 E2]]; rewrite <- E2 in Gi; try (apply (H i c Gi Ni)).
      apply get_push in Gi as [[-> _]|Gi]; [lia|apply (H i c Gi Ni)]. }
    destruct o; try discriminate R; try discriminate Ac; cbn [step] in S;
      try (eapply Cre; exact S);
      try (eapply Alt; [|exact S]; intros c1 c2 E Gc; inversion E; subst; exact Gc).
    + destruct (get_client (ww w) src); [eapply Cre; exact S|]. inversion S as [[S1 S2]]. rewrite <- S2 in Gi. apply (H i c Gi Ni).
    + eapply Alt; [|exact S]. intros c1 c2 E Gc. unfold client_setServerName in E. destruct (check_server_name server); inversion E; subst. exact Gc.
    + eapply Alt; [|exact S]. intros c1 c2 E Gc. cbv beta in E. destruct (c_kind c1); inversion E; subst; exact Gc.
Qed.
End Program.
