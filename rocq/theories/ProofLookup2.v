(** Proofs for C98. *)

From Coq Require Import Ascii String List NArith ZArith Bool Lia ZifyBool ZifyNat ZifyN.
From Verif Require Import Base ModelUtil ModelAddress ModelAttachment ModelErrors ModelReply ModelMessage
  ModelState ModelClient ModelWorld SpecThreads ModelThreads SpecLookup ProofLookup ProofThreads.
Import ListNotations.
Open Scope Z_scope.

(** ** One thread *)

Definition latest (t : list event) : option (str * bool) :=
  fold_left (fun a ev => match ev with EvResolve h ok => Some (h, ok) | _ => a end) t None.
Lemma latest_snoc : forall t ev, latest (t ++ [ev]) = match ev with EvResolve h ok => Some (h, ok) | _ => latest t end.
Proof. intros. unfold latest. rewrite fold_left_app. reflexivity. Qed.

(** Every connect() comes after a lookup, the latest of which succeeded. *)
Definition prepared (t : list event) : Prop :=
  forall t1 fd port ok t2, t = t1 ++ EvConnect fd port ok :: t2 -> exists h, latest t1 = Some (h, true).

Lemma prepared_snoc : forall t ev, prepared t ->
  (forall fd port ok, ev = EvConnect fd port ok -> exists h, latest t = Some (h, true)) -> prepared (t ++ [ev]).
Proof.
  intros t ev H He t1 fd port ok t2 E. apply snoc_split in E as [(-> & E & ->)|(t3 & -> & ->)].
  - symmetry in E. eapply He; exact E.
  - eapply H; reflexivity.
Qed.
Lemma prepared_off : forall t ev, off_net ev -> prepared t -> prepared (t ++ [ev]).
Proof. intros t ev Hv H. apply prepared_snoc; [exact H|]. intros fd port ok ->. destruct Hv. Qed.

Definition ready_for (h : str) (t : list event) : Prop := prepared t /\ latest t = Some (h, true).
Lemma ready_off : forall h t ev, off_net ev -> ready_for h t -> ready_for h (t ++ [ev]).
Proof.
  intros h t ev Hv [H1 H2]. split; [apply prepared_off; assumption|]. rewrite latest_snoc.
  destruct ev; try exact H2. destruct Hv.
Qed.

(** A computation from one invariant to another. *)
Definition goes {A} (I J : list event -> Prop) (K : A -> list event -> Prop) (m : M A) : Prop :=
  forall s, I (s_t s) -> J (s_t (snd (m s))) /\ forall a, fst (m s) = Done a -> K a (s_t (snd (m s))).
Lemma goes_bind : forall {A C} (I J : list event -> Prop) (K : A -> list event -> Prop) (K' : C -> list event -> Prop) m k,
  goes I J K m -> (forall a, goes (K a) J K' (k a)) -> goes I J K' (bind m k).
Proof.
  intros A C I J K K' m k Hm Hk s H. unfold bind. destruct (Hm s H) as [H1 H2].
  destruct (m s) as [o s']; cbn [fst snd] in *. destruct o as [a| |u| | |]; try (split; [exact H1|intros ? X; discriminate X]).
  apply (Hk a). apply H2. reflexivity.
Qed.
Lemma goes_keep : forall {A} (I J : list event -> Prop) (m : M A), keeps I m -> (forall t, I t -> J t) -> goes I J (fun _ => I) m.
Proof. intros A I J m Hm HJ s H. split; [apply HJ, Hm, H|]. intros a _. apply Hm, H. Qed.
Lemma goes_last : forall {A} (I J : list event -> Prop) (m : M A), keeps I m -> (forall t, I t -> J t) -> goes I J (fun _ => J) m.
Proof. intros A I J m Hm HJ s H. split; [apply HJ, Hm, H|]. intros a _. apply HJ, Hm, H. Qed.

Lemma goes_resolve : forall n, goes prepared prepared
  (fun r t => prepared t /\ forall len, r = Some len -> 0 <= len -> ready_for n t) (sys_gethostbyname n).
Proof.
  intros n s H. unfold sys_gethostbyname, bind, gete, upde, emit, ret.
  destruct (e_host (s_e s)) as [|r l]; cbn [fst snd s_t].
  - assert (P : prepared (s_t s ++ [EvResolve n true])) by (apply prepared_snoc; [exact H|discriminate]).
    split; [exact P|]. intros a _. split; [exact P|]. intros len _ _. split; [exact P|]. apply latest_snoc.
  - assert (P : forall b, prepared (s_t s ++ [EvResolve n b])) by (intros b; apply prepared_snoc; [exact H|discriminate]).
    split; [apply P|]. intros a X. split; [apply P|]. intros len -> L. injection X as ->. split; [apply P|]. rewrite latest_snoc.
    destruct (0 <=? len) eqn:Z0; [reflexivity|lia].
Qed.
Lemma goes_connect : forall n, goes (ready_for n) prepared (fun _ => ready_for n) sys_connect.
Proof.
  intros n s [H1 H2]. unfold sys_connect, bind, getc, gete, upde, emit, ret.
  assert (P : forall fd p b, ready_for n (s_t s ++ [EvConnect fd p b])).
  { intros fd p b. split; [apply prepared_snoc; [exact H1|intros; eauto]|]. rewrite latest_snoc. exact H2. }
  destruct (e_conn (s_e s)) as [|r l]; cbn [fst snd s_t]; (split; [apply P|intros; apply P]).
Qed.

Lemma ready_prepared : forall h t, ready_for h t -> prepared t.
Proof. intros h t [H _]. exact H. Qed.
#[local] Hint Resolve prepared_off ready_off ready_prepared : core.

Lemma goes_session : goes prepared prepared (fun _ => prepared) initializeSessionPOSIX.
Proof.
  unfold initializeSessionPOSIX. intros s H.
  match goal with |- context [bind gete ?k s] => change (bind gete k s) with (k (s_e s) s) end. cbv beta.
  revert s H. intros s H. generalize (s_e s). intros e. revert s H.
  match goal with |- forall s, _ -> prepared (s_t (snd (?m s))) /\ _ => change (goes prepared prepared (fun _ => prepared) m) end.
  assert (L : forall er, keeps prepared (log_errno er)) by (intros; apply keeps_log_errno; auto).
  destruct (e_sock e) as [|[n|er] l].
  - apply goes_last; [apply keeps_stop|auto].
  - do 3 (eapply goes_bind; [apply goes_keep; [solve [apply keeps_upde|apply keeps_emit; [auto|exact Logic.I]|apply keeps_updc]|auto]|intros ?; cbv beta]).
    eapply goes_bind; [apply goes_keep; [apply keeps_stop|auto]|intros c; cbv beta].
    destruct (c_server c) as [name|]; [|apply goes_last; [apply keeps_stop|auto]].
    eapply goes_bind; [apply goes_resolve|]. intros [len|]; cbv beta.
    2:{ intros s1 [H1 _]. split; [exact H1|]. intros z _. exact H1. }
    assert (Q : forall m : M Z, goes (ready_for name) prepared (fun _ => prepared) m -> 0 <= len ->
      goes (fun t => prepared t /\ forall len0, Some len = Some len0 -> 0 <= len0 -> ready_for name t) prepared (fun _ => prepared) m).
    { intros m Hm L0 s1 [_ H1]. apply Hm. exact (H1 len eq_refl L0). }
    destruct (len <? 0) eqn:L0.
    { intros s1 [H1 _]. split; [exact H1|]. intros z _. exact H1. }
    assert (L1 : 0 <= len) by lia.
    destruct (4 <? len); [apply Q; [apply goes_last; [apply keeps_stop|eauto]|exact L1]|].
    apply Q; [|exact L1].
    assert (Off : forall t ev, off_net ev -> ready_for name t -> ready_for name (t ++ [ev])) by auto.
    eapply goes_bind; [apply goes_keep; [apply (keeps_nonblocking _ Off)|eauto]|intros nb; cbv beta].
    destruct (negb (nb =? 0)); [apply goes_last; [apply keeps_stop|eauto]|].
    eapply goes_bind; [apply goes_keep; [apply (keeps_logc (ready_for name))|eauto]|intros ?; cbv beta].
    eapply goes_bind; [apply goes_connect|intros r; cbv beta].
    apply goes_last; [|eauto]. destruct r as [er|]; [|apply (keeps_blocking _ Off)].
    destruct (er =? EINPROGRESS).
    + apply keeps_bind; [apply (keeps_wait_connect _ Off)|intros w]. destruct (w =? 0); [apply (keeps_blocking _ Off)|apply keeps_stop].
    + apply keeps_bind; [apply (keeps_log_errno _)|intros w; apply keeps_stop].
  - do 3 (eapply goes_bind; [apply goes_keep; [solve [apply keeps_upde|apply keeps_emit; [auto|exact Logic.I]|apply keeps_updc]|auto]|intros ?; cbv beta]).
    eapply goes_bind; [apply goes_keep; [apply L|auto]|intros ?; cbv beta]. apply goes_last; [apply keeps_stop|auto].
Qed.

Lemma keeps_init : keeps prepared initializeSession.
Proof.
  unfold initializeSession. apply keeps_bind; [apply keeps_updc|intros _]. intros s H. exact (proj1 (goes_session s H)).
Qed.

Lemma prepared_run_on : forall {A} i (m : M A) f w, keeps prepared m -> prepared (w_trace w) ->
  prepared (w_trace (snd (run_on i m f w))).
Proof.
  intros A i m f w Hm H. unfold run_on. destruct (get_client w i) as [c|]; [|exact H].
  specialize (Hm (mkSt c (w_env w) (w_trace w)) H). destruct (m (mkSt c (w_env w) (w_trace w))) as [o s]. exact Hm.
Qed.

Lemma prepared_step : forall o w x w', step o w = (x, w') -> prepared (w_trace w) -> prepared (w_trace w').
Proof.
  intros o w x w' H P. destruct o; try (assert (X := step_quiet_trace _ _ _ _ H); cbn beta iota in X; rewrite X; exact P).
  - assert (X := prepared_run_on i (sendMail m) Some w (keeps_sendMail _ prepared_off keeps_init m) P).
    cbn [step] in H. rewrite H in X. exact X.
  - assert (K : keeps prepared (cleanup;; ret 0)).
    { apply keeps_bind; [apply (keeps_cleanup _ prepared_off)|intros; apply keeps_stop]. }
    assert (X := prepared_run_on i (cleanup;; ret 0) (fun _ => None) w K P).
    cbn [step] in H. rewrite H in X. exact X.
Qed.

Lemma prepared_run : forall ops w, prepared (w_trace w) -> prepared (w_trace (snd (run ops w))).
Proof.
  induction ops as [|o ops IH]; intros w P; cbn [run]; [exact P|].
  destruct (step o w) as [x w1] eqn:E. assert (P1 := prepared_step _ _ _ _ E P).
  destruct (continues x); [|exact P1]. specialize (IH w1 P1). destruct (run ops w1). exact IH.
Qed.
Lemma prepared_program : forall ops e, prepared (w_trace (snd (run ops (initial_world e)))).
Proof. intros. apply prepared_run. intros t1 fd port ok t2 E. destruct t1; discriminate E. Qed.

(** ** All threads *)

Definition calls (l : list action) : list event := flat_map (fun a => match a with Call ev => [ev] | CopyAddress => [] end) l.
Lemma calls_app : forall a b, calls (a ++ b) = calls a ++ calls b.
Proof. intros. apply flat_map_app. Qed.

(** What precedes an action of a thread. *)
Lemma actions_split : forall t p a q, actions t = p ++ a :: q ->
  match a with
  | CopyAddress => exists p' h, p = p' ++ [Call (EvResolve h true)]
  | Call ev => (exists t2, t = calls p ++ ev :: t2) /\ forall p' h, p <> p' ++ [Call (EvResolve h true)]
  end.
Proof.
  induction t as [|ev t IH]; intros p a q E; [destruct p; discriminate E|].
  change (actions (ev :: t)) with ((match ev with EvResolve _ true => [Call ev; CopyAddress] | _ => [Call ev] end) ++ actions t) in E.
  assert (S : (exists h, ev = EvResolve h true) \/
    match ev with EvResolve _ true => [Call ev; CopyAddress] | _ => [Call ev] end = [Call ev] /\ forall h, ev <> EvResolve h true).
  { destruct ev; try (right; split; [reflexivity|discriminate]). destruct ok; [left; eauto|right; split; [reflexivity|discriminate]]. }
  destruct S as [[h ->]|[S Ns]].
  - destruct p as [|x p]; [|destruct p as [|y p]].
    + injection E as <- _. split; [exists t; reflexivity|]. intros p' h' X. destruct p'; discriminate X.
    + injection E as <- <- _. exists [], h. reflexivity.
    + injection E as <- <- E. apply IH in E. destruct a.
      * destruct E as [[t2 ->] Nn]. split; [exists t2; reflexivity|]. intros p' h' X.
        destruct p' as [|z [|z' p']]; try discriminate X. injection X as _ _ X. exact (Nn _ _ X).
      * destruct E as (p' & h' & ->). exists (Call (EvResolve h true) :: CopyAddress :: p'), h'. reflexivity.
  - rewrite S in E. destruct p as [|x p].
    + injection E as <- _. split; [exists t; reflexivity|]. intros p' h' X. destruct p'; discriminate X.
    + injection E as <- E. apply IH in E. destruct a.
      * destruct E as [[t2 ->] Nn]. split; [exists t2; reflexivity|]. intros p' h' X.
        destruct p' as [|z p']; [injection X as X _; destruct (Ns _ X)|]. injection X as _ X. exact (Nn _ _ X).
      * destruct E as (p' & h' & ->). exists (Call ev :: p'), h'. reflexivity.
Qed.

Lemma asked_latest : forall i T, asked i T = option_map fst (latest (calls (thread i T))).
Proof.
  intros i T. unfold asked. generalize (thread i T). intros l.
  induction l as [|a l IH] using rev_ind; [reflexivity|]. rewrite fold_left_app, calls_app, IH. cbn [fold_left].
  destruct a as [ev|]; cbn [calls flat_map app]; [rewrite latest_snoc; destruct ev; reflexivity|rewrite app_nil_r; reflexivity].
Qed.

Lemma after_snoc : forall T x, addresses_after (T ++ [x]) = look_up (addresses_after T) x.
Proof. intros. unfold addresses_after. rewrite fold_left_app. reflexivity. Qed.

(** The latest action of a thread. *)
Lemma thread_last : forall (T : schedule action) i p a, thread i T = p ++ [a] ->
  exists T1 T2, T = T1 ++ (i, a) :: T2 /\ thread i T1 = p /\ thread i T2 = [].
Proof.
  intros T. induction T as [|[j b] T IH] using rev_ind; intros i p a E; [destruct p; discriminate E|].
  rewrite thread_snoc in E. destruct (Nat.eqb j i) eqn:Ej.
  - apply Nat.eqb_eq in Ej. subst j. apply app_inj_tail in E as [E ->]. exists T, []. repeat split; assumption.
  - rewrite app_nil_r in E. apply IH in E as (T1 & T2 & -> & E1 & E2). exists T1, (T2 ++ [(j, b)]).
    rewrite <- app_assoc. repeat split; [exact E1|]. rewrite thread_snoc, Ej, app_nil_r. exact E2.
Qed.

Lemma found_kept : forall T2 T, (forall j h ok, ~ In (j, Call (EvResolve h ok)) T2) ->
  found (addresses_after (T ++ T2)) = found (addresses_after T).
Proof.
  induction T2 as [|x T2 IH] using rev_ind; intros T H; [rewrite app_nil_r; reflexivity|].
  rewrite app_assoc, after_snoc. rewrite <- (IH T); [|intros j h ok X; apply (H j h ok), in_app_iff; auto].
  destruct x as [j [ev|]]; [|reflexivity]. destruct ev; try reflexivity.
  destruct (H j host ok). apply in_app_iff. right. left. reflexivity.
Qed.

(** A thread that looked up a name has copied its address, unless that is its next action. *)
Definition settled (T : schedule action) : Prop :=
  forall i h, latest (calls (thread i T)) = Some (h, true) ->
    (exists p h', thread i T = p ++ [Call (EvResolve h' true)]) \/ copied (addresses_after T) i = Some h.

Definition follows (T : schedule action) : Prop := forall i, exists t, prepared t /\ exists later, actions t = thread i T ++ later.

Lemma follows_prefix : forall T T', follows (T ++ T') -> follows T.
Proof.
  intros T T' H i. destruct (H i) as (t & P & q & Q). exists t. split; [exact P|]. exists (thread i T' ++ q).
  rewrite Q, thread_app, app_assoc. reflexivity.
Qed.
Lemma undisturbed_prefix : forall T T', undisturbed (T ++ T') -> undisturbed T.
Proof.
  intros T T' H T1 i h T2 T3 E. apply (H T1 i h T2 (T3 ++ T')). rewrite E, <- !app_assoc. cbn.
  rewrite <- app_assoc. reflexivity.
Qed.

Lemma settled_all : forall T, follows T -> undisturbed T -> settled T.
Proof.
  intros T. induction T as [|[j a] T IH] using rev_ind; intros F U; [intros i h X; discriminate X|].
  specialize (IH (follows_prefix _ _ F) (undisturbed_prefix _ _ U)).
  intros i h X. rewrite thread_snoc in *. destruct (Nat.eqb j i) eqn:Ej.
  2:{ rewrite app_nil_r in *. destruct (IH i h X) as [Y|Y]; [left; exact Y|right]. rewrite after_snoc.
      destruct a as [ev|]; [destruct ev; exact Y|]. cbn [look_up copied].
      assert (Nat.eqb i j = false) as -> by (rewrite Nat.eqb_sym; exact Ej). exact Y. }
  apply Nat.eqb_eq in Ej. subst j.
  destruct (F i) as (t & Pt & q & Q). rewrite thread_snoc, Nat.eqb_refl, <- app_assoc in Q. cbn [app] in Q.
  apply actions_split in Q. destruct a as [ev|].
  - destruct Q as [_ Nn]. rewrite calls_app in X. cbn [calls flat_map app] in X. rewrite latest_snoc in X.
    assert (Y : forall h', latest (calls (thread i T)) = Some (h', true) -> copied (addresses_after T) i = Some h').
    { intros h' L. destruct (IH i h' L) as [(p & h'' & Z)|Z]; [destruct (Nn _ _ Z)|exact Z]. }
    rewrite after_snoc. destruct ev; try (right; apply Y; exact X).
    injection X as -> ->. left. eauto.
  - destruct Q as (p & h' & Z). rewrite calls_app in X. cbn [calls flat_map] in X. rewrite app_nil_r in X.
    rewrite Z, calls_app in X. cbn [calls flat_map app] in X. rewrite latest_snoc in X. injection X as ->.
    right. destruct (thread_last _ _ _ _ Z) as (T1 & T2 & -> & _ & E2).
    assert (Nr : forall k h0 ok, ~ In (k, Call (EvResolve h0 ok)) T2).
    { apply (U T1 i h T2 []); [rewrite <- app_assoc; reflexivity|exact E2]. }
    rewrite after_snoc. cbn [look_up copied]. rewrite Nat.eqb_refl.
    change (T1 ++ (i, Call (EvResolve h true)) :: T2) with (T1 ++ [(i, Call (EvResolve h true))] ++ T2).
    rewrite app_assoc, (found_kept _ _ Nr), after_snoc. reflexivity.
Qed.

Theorem right_server_undisturbed : forall P E T, interleaved P E T -> undisturbed T -> right_server T.
Proof.
  intros P E T H U before i fd port ok after Eq.
  assert (F : follows T).
  { intros k. destruct (H k) as [q Q]. eexists. split; [apply (prepared_program (P k) (E k))|]. exists q. exact Q. }
  subst T. assert (S := settled_all _ (follows_prefix _ _ F) (undisturbed_prefix _ _ U)).
  destruct (F i) as (t & Pt & q & Q). rewrite thread_app in Q.
  change ((i, Call (EvConnect fd port ok)) :: after) with ([(i, Call (EvConnect fd port ok))] ++ after) in Q.
  rewrite thread_app, <- app_assoc in Q. unfold thread at 2 in Q. cbn [filter fst map snd] in Q. rewrite Nat.eqb_refl in Q.
  cbn [map snd app] in Q. apply actions_split in Q as [[t2 ->] Nn].
  destruct (Pt _ _ _ _ _ eq_refl) as [h L]. exists h. split; [rewrite asked_latest, L; reflexivity|].
  destruct (S i h L) as [(p & h' & Z)|Z]; [destruct (Nn _ _ Z)|exact Z].
Qed.

Lemma right_server_alone : forall P E T k, interleaved P E T -> (forall x, In x T -> fst x = k) -> right_server T.
Proof.
  intros P E T k H A. apply (right_server_undisturbed P E T H). intros T1 i h T2 T3 Eq E2 j h' ok I.
  assert (Ek : i = k).
  { apply (A (i, Call (EvResolve h true))). rewrite Eq, in_app_iff. right. left. reflexivity. }
  assert (Ej : j = k).
  { apply (A (j, Call (EvResolve h' ok))). rewrite Eq, in_app_iff. right. right. apply in_app_iff. left. exact I. }
  subst i j. assert (X : In (Call (EvResolve h' ok)) (thread k T2)); [|rewrite E2 in X; exact X].
  unfold thread. apply in_map_iff. exists (k, Call (EvResolve h' ok)). split; [reflexivity|].
  apply filter_In. split; [exact I|]. apply Nat.eqb_refl.
Qed.
