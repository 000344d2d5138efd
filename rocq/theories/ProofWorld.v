(** Programs: how one operation changes the clients, and invariants of whole
    histories. *)

From Coq Require Import Ascii String List NArith ZArith Bool Lia ZifyBool ZifyNat ZifyN.
From Verif Require Import Base Lib ModelUtil ModelBase64 ModelAddress ModelAttachment
  ModelErrors ModelReply ModelMessage ModelState ModelClient ModelWorld
  ProofSteps ProofWalk ProofPhases ProofEstablish ProofLog ProofSend.
Import ListNotations.
Open Scope Z_scope.

(** ** Clients of a world *)

Lemma nth_list_set : forall {A} (l : list A) i v j,
  nth_error (list_set l i v) j =
  if Nat.eqb i j then (if Nat.ltb i (length l) then Some v else None) else nth_error l j.
Proof.
  induction l as [|x l IH]; intros i v j; simpl.
  - destruct (Nat.eqb i j); [|reflexivity]. destruct j; reflexivity.
  - destruct i as [|i], j as [|j]; simpl; try reflexivity. rewrite IH. reflexivity.
Qed.
Lemma length_list_set : forall {A} (l : list A) i v, length (list_set l i v) = length l.
Proof. induction l as [|x l IH]; intros [|i] v; simpl; auto. Qed.

Lemma get_put : forall w i v j c, get_client (put_client i v w) j = Some c ->
  (j = i /\ v = Some c) \/ (j <> i /\ get_client w j = Some c).
Proof.
  intros w i v j c H. unfold get_client, put_client in *. simpl in H. rewrite nth_list_set in H.
  destruct (Nat.eqb i j) eqn:E.
  - apply Nat.eqb_eq in E. subst. destruct (Nat.ltb _ _); [|discriminate H]. destruct v; [|discriminate H].
    inversion H; subst. auto.
  - apply Nat.eqb_neq in E. auto.
Qed.
Lemma get_push : forall w c0 j c, get_client (push_client c0 w) j = Some c ->
  (j = length (w_clients w) /\ c = c0) \/ get_client w j = Some c.
Proof.
  intros w c0 j c H. unfold get_client, push_client in *. simpl in H.
  destruct (Nat.lt_ge_cases j (length (w_clients w))) as [L|L].
  - rewrite nth_error_app1 in H by assumption. auto.
  - rewrite nth_error_app2 in H by assumption. destruct (j - length (w_clients w))%nat eqn:E.
    + simpl in H. inversion H; subst. left. split; [lia|reflexivity].
    + simpl in H. destruct n; discriminate H.
Qed.

(** Where a client present after operation [o] comes from. *)
Inductive origin (o : op) (w : world) : nat -> client -> Prop :=
| og_same : forall i c, get_client w i = Some c -> origin o w i c
| og_new : forall i k p n c, o = ONew k p n -> client_new k p n = Done c -> origin o w i c
| og_copy : forall i j c c', o = OCopy j -> get_client w j = Some c -> client_copy c = Done c' -> origin o w i c'
| og_move : forall i j c, o = OMove j -> get_client w j = Some c -> origin o w i (client_move c)
| og_moved : forall i j c, o = OMove j -> get_client w j = Some c -> origin o w i (client_moved c)
| og_assign : forall i j d c c', o = OCopyAssign i j -> get_client w i = Some d -> get_client w j = Some c ->
    i <> j -> c_kind d = c_kind c -> client_assign d c = Done c' -> origin o w i c'
| og_move_assign : forall i j d c, o = OMoveAssign i j -> get_client w i = Some d -> get_client w j = Some c ->
    i <> j -> c_kind d = c_kind c -> origin o w i (client_move_assign d c)
| og_move_assigned : forall i j d c, o = OMoveAssign j i -> get_client w j = Some d -> get_client w i = Some c ->
    i <> j -> origin o w i (client_moved c)
| og_send : forall i m c, o = OSend i m -> get_client w i = Some c ->
    origin o w i (s_c (snd (sendMail m (mkSt c (w_env w) (w_trace w)))))
| og_server : forall i p c c', o = OSetServer i p -> get_client w i = Some c -> client_setServerName c p = Done c' -> origin o w i c'
| og_port : forall i n c, o = OSetPort i n -> get_client w i = Some c -> origin o w i (set_port (u32 n) c)
| og_batch : forall i b c, o = OSetBatch i b -> get_client w i = Some c -> origin o w i (set_batch b c)
| og_timeout : forall i n c, o = OSetTimeout i n -> get_client w i = Some c -> origin o w i (set_timeout (u32 n) c)
| og_cred : forall i cr c, o = OSetCred i cr -> get_client w i = Some c -> origin o w i (set_cred (Some cr) c)
| og_keep : forall i b c, o = OSetKeep i b -> get_client w i = Some c -> origin o w i (set_keep b c)
| og_self : forall i b c, o = OSetSelfSigned i b -> get_client w i = Some c -> c_kind c <> KPlain -> origin o w i (set_selfsigned b c).

Lemma alter_origin : forall i f w x w' j c',
  alter i f w = (x, w') -> get_client w' j = Some c' ->
  get_client w j = Some c' \/ (j = i /\ exists c, get_client w i = Some c /\ f c = Done c').
Proof.
  intros i f w x w' j c' H G. unfold alter in H. destruct (get_client w i) as [c|] eqn:E; [|inversion H; subst; auto].
  destruct (f c) eqn:F; inversion H; subst; auto. apply get_put in G as [[-> X]|[_ X]]; [|auto].
  inversion X; subst. right. eauto.
Qed.

Lemma run_on_origin : forall {A} i (m : M A) f w x w' j c',
  run_on i m f w = (x, w') -> get_client w' j = Some c' ->
  get_client w j = Some c' \/
  (j = i /\ exists c, get_client w i = Some c /\ f (s_c (snd (m (mkSt c (w_env w) (w_trace w))))) = Some c').
Proof.
  intros A i m f w x w' j c' H G. unfold run_on in H. destruct (get_client w i) as [c|] eqn:E; [|inversion H; subst; auto].
  destruct (m (mkSt c (w_env w) (w_trace w))) as [o s] eqn:F. inversion H; subst.
  change (get_client (put_client i (f (s_c s)) w) j = Some c') in G.
  apply get_put in G as [[-> X]|[_ X]]; [|auto]. right. split; [reflexivity|]. exists c. rewrite F. auto.
Qed.

Lemma kind_eqb_true : forall a b, kind_eqb a b = true -> a = b.
Proof. intros [] []; simpl; congruence. Qed.

Lemma step_origin : forall o w x w' i c', step o w = (x, w') -> get_client w' i = Some c' -> origin o w i c'.
Proof.
  intros o w x w' i c' H G. destruct o; simpl in H.
  - destruct (client_new k server port) eqn:E; inversion H; subst; try (apply og_same; assumption).
    apply get_push in G as [[_ ->]|G]; [eapply og_new; eauto|apply og_same; assumption].
  - destruct (get_client w src) as [c|] eqn:E; [|inversion H; subst; apply og_same; assumption].
    destruct (client_copy c) eqn:F; inversion H; subst; try (apply og_same; assumption).
    apply get_push in G as [[_ ->]|G]; [eapply og_copy; eauto|apply og_same; assumption].
  - destruct (get_client w src) as [c|] eqn:E; [|inversion H; subst; apply og_same; assumption].
    inversion H; subst. apply get_push in G as [[_ ->]|G]; [eapply og_move; eauto|].
    apply get_put in G as [[-> X]|[_ X]]; [inversion X; subst; eapply og_moved; eauto|apply og_same; assumption].
  - destruct (get_client w dst) as [d|] eqn:E; [|inversion H; subst; apply og_same; assumption].
    destruct (get_client w src) as [c|] eqn:F; [|inversion H; subst; apply og_same; assumption].
    destruct (Nat.eqb dst src) eqn:N; [inversion H; subst; apply og_same; assumption|].
    destruct (kind_eqb _ _) eqn:K; [|inversion H; subst; apply og_same; assumption].
    apply kind_eqb_true in K. apply Nat.eqb_neq in N.
    destruct (alter_origin _ _ _ _ _ _ _ H G) as [X|[-> (d' & X & Y)]].
    + apply og_same; assumption.
    + rewrite E in X. inversion X; subst. eapply og_assign; eauto.
  - destruct (get_client w dst) as [d|] eqn:E; [|inversion H; subst; apply og_same; assumption].
    destruct (get_client w src) as [c|] eqn:F; [|inversion H; subst; apply og_same; assumption].
    destruct (Nat.eqb dst src) eqn:N; [inversion H; subst; apply og_same; assumption|].
    destruct (kind_eqb _ _) eqn:K; [|inversion H; subst; apply og_same; assumption].
    apply kind_eqb_true in K. apply Nat.eqb_neq in N. inversion H; subst.
    apply get_put in G as [[-> X]|[_ G]].
    + inversion X; subst. eapply og_move_assigned; eauto.
    + apply get_put in G as [[-> X]|[_ G]]; [|apply og_same; assumption].
      inversion X; subst. eapply og_move_assign; eauto.
  - destruct (run_on_origin _ _ _ _ _ _ _ _ H G) as [X|[-> (c & X & Y)]]; [apply og_same; assumption|].
    inversion Y; subst. eapply og_send; eauto.
  - destruct (alter_origin _ _ _ _ _ _ _ H G) as [X|[-> (c & X & Y)]]; [apply og_same; assumption|].
    eapply og_server; eauto.
  - destruct (alter_origin _ _ _ _ _ _ _ H G) as [X|[-> (c & X & Y)]]; [apply og_same; assumption|].
    inversion Y; subst. eapply og_port; eauto.
  - destruct (alter_origin _ _ _ _ _ _ _ H G) as [X|[-> (c & X & Y)]]; [apply og_same; assumption|].
    inversion Y; subst. eapply og_batch; eauto.
  - destruct (alter_origin _ _ _ _ _ _ _ H G) as [X|[-> (c & X & Y)]]; [apply og_same; assumption|].
    inversion Y; subst. eapply og_timeout; eauto.
  - destruct (alter_origin _ _ _ _ _ _ _ H G) as [X|[-> (c0 & X & Y)]]; [apply og_same; assumption|].
    inversion Y; subst. eapply og_cred; eauto.
  - destruct (alter_origin _ _ _ _ _ _ _ H G) as [X|[-> (c0 & X & Y)]]; [apply og_same; assumption|].
    inversion Y; subst. eapply og_keep; eauto.
  - destruct (alter_origin _ _ _ _ _ _ _ H G) as [X|[-> (c0 & X & Y)]]; [apply og_same; assumption|].
    destruct (c_kind c0) eqn:K; inversion Y; subst; eapply og_self; eauto; congruence.
  - destruct (run_on_origin _ _ _ _ _ _ _ _ H G) as [X|[-> (c & X & Y)]]; [apply og_same; assumption|discriminate Y].
Qed.

(** The trace only grows. *)
Lemma walk_trace : forall {A} P (m : M A) s, walk P m s -> exists t, s_t (snd (m s)) = s_t s ++ t.
Proof. intros A P m s [H _]. eapply steps_trace; eauto. Qed.

Definition destroy : M Z := cleanup;; ret 0.
Lemma destroy_walk : forall s, walk (any_label (mkMsg Plaintext (mkAddr [] []) (AArr []) (AArr []) (AArr []) [] [] (AArr []))) destroy s.
Proof.
  intros s. unfold destroy. apply walk_bind; [|intros; apply walk_ret].
  eapply walk_mono; [apply any_cleanup|apply any_weak].
Qed.

Lemma create_trace : forall o w x w', create o w = (x, w') -> w_trace w' = w_trace w /\ w_env w' = w_env w.
Proof. intros o w x w' H. unfold create in H. destruct o; inversion H; subst; auto. Qed.
Lemma alter_trace : forall i f w x w', alter i f w = (x, w') -> w_trace w' = w_trace w /\ w_env w' = w_env w.
Proof.
  intros i f w x w' H. unfold alter in H. destruct (get_client w i); [|inversion H; subst; auto].
  destruct (f c); inversion H; subst; auto.
Qed.

(** Either nothing happened outside, or a member function ran. *)
Lemma step_effect : forall o w x w', step o w = (x, w') ->
  (w_trace w' = w_trace w /\ w_env w' = w_env w) \/
  (exists i m c, o = OSend i m /\ get_client w i = Some c /\
     x = fst (sendMail m (mkSt c (w_env w) (w_trace w))) /\
     w_env w' = s_e (snd (sendMail m (mkSt c (w_env w) (w_trace w)))) /\
     w_trace w' = s_t (snd (sendMail m (mkSt c (w_env w) (w_trace w))))) \/
  (exists i c, o = ODestroy i /\ get_client w i = Some c /\
     x = fst (destroy (mkSt c (w_env w) (w_trace w))) /\
     w_env w' = s_e (snd (destroy (mkSt c (w_env w) (w_trace w)))) /\
     w_trace w' = s_t (snd (destroy (mkSt c (w_env w) (w_trace w))))).
Proof.
  intros o w x w' H. destruct o; simpl in H; try (left; eapply alter_trace; eassumption).
  - left. eapply create_trace; eassumption.
  - destruct (get_client w src); [left; eapply create_trace; eassumption|inversion H; subst; auto].
  - destruct (get_client w src); inversion H; subst; auto.
  - destruct (get_client w dst); [|inversion H; subst; auto].
    destruct (get_client w src); [|inversion H; subst; auto].
    destruct (Nat.eqb _ _); [inversion H; subst; auto|].
    destruct (kind_eqb _ _); [left; eapply alter_trace; eassumption|inversion H; subst; auto].
  - destruct (get_client w dst); [|inversion H; subst; auto].
    destruct (get_client w src); [|inversion H; subst; auto].
    destruct (Nat.eqb _ _); [inversion H; subst; auto|].
    destruct (kind_eqb _ _); inversion H; subst; auto.
  - unfold run_on in H. destruct (get_client w i) as [c|] eqn:E; [|inversion H; subst; auto].
    destruct (sendMail m (mkSt c (w_env w) (w_trace w))) as [o s] eqn:F. inversion H; subst.
    right. left. exists i, m, c. rewrite F. auto.
  - unfold run_on in H. destruct (get_client w i) as [c|] eqn:E; [|inversion H; subst; auto].
    fold destroy in H.
    destruct (destroy (mkSt c (w_env w) (w_trace w))) as [o s] eqn:F. inversion H; subst.
    right. right. exists i, c. rewrite F. auto.
Qed.

Lemma step_trace : forall o w x w', step o w = (x, w') -> exists t, w_trace w' = w_trace w ++ t.
Proof.
  intros o w x w' H. apply step_effect in H as [[-> _]|[(i & m & c & _ & _ & _ & _ & ->)|(i & c & _ & _ & _ & _ & ->)]].
  - exists []. rewrite app_nil_r. reflexivity.
  - apply (walk_trace (any_label m) (sendMail m) (mkSt c (w_env w) (w_trace w))). apply sendMail_walk.
  - eapply (walk_trace _ destroy (mkSt c (w_env w) (w_trace w))). apply destroy_walk.
Qed.

(** ** Invariants of histories *)

Lemma run_inv : forall (allowed : op -> Prop) (I : world -> Prop),
  (forall o w x w', allowed o -> step o w = (x, w') -> I w -> I w') ->
  forall ops w, (forall o, In o ops -> allowed o) -> I w -> I (snd (run ops w)).
Proof.
  intros allowed I H. induction ops as [|o ops IH]; intros w A Iw; [exact Iw|]. cbn [run].
  destruct (step o w) as [x w1] eqn:E.
  assert (I1 : I w1) by (eapply H; eauto; apply A; left; reflexivity).
  destruct (continues x); [|exact I1].
  assert (I2 : I (snd (run ops w1))) by (apply IH; [intros; apply A; right; assumption|exact I1]).
  destruct (run ops w1). exact I2.
Qed.

(** Every outcome is produced in a world that satisfies the invariant. *)
Lemma run_outcome : forall (allowed : op -> Prop) (I : world -> Prop) (Q : outcome Z -> world -> Prop),
  (forall o w x w', allowed o -> step o w = (x, w') -> I w -> I w') ->
  (forall o w x w', allowed o -> step o w = (x, w') -> I w -> continues x = false -> Q x w') ->
  forall ops w x, (forall o, In o ops -> allowed o) -> I w ->
  In x (fst (run ops w)) -> continues x = false -> Q x (snd (run ops w)).
Proof.
  intros allowed I Q H HQ. induction ops as [|o ops IH]; intros w x A Iw Hx Cx; [destruct Hx|].
  cbn [run] in *. destruct (step o w) as [y w1] eqn:E.
  assert (A1 : allowed o) by (apply A; left; reflexivity).
  assert (I1 : I w1) by (eapply H; eauto).
  destruct (continues y) eqn:Cy.
  - assert (X := IH w1 x ltac:(intros; apply A; right; assumption) I1). destruct (run ops w1) as [xs w2]. simpl in *.
    destruct Hx as [->|Hx]; [congruence|]. auto.
  - simpl in *. destruct Hx as [->|[]]. eapply HQ; eauto.
Qed.

Definition all_clients (Q : client -> list event -> Prop) (w : world) : Prop :=
  forall i c, get_client w i = Some c -> Q c (w_trace w).

Lemma all_clients_step : forall (Q : client -> list event -> Prop) o w x w',
  (forall c t t', Q c t -> Q c (t ++ t')) ->
  (forall i c, origin o w i c -> (forall j d, get_client w j = Some d -> Q d (w_trace w)) ->
     get_client w' i = Some c -> Q c (w_trace w')) ->
  step o w = (x, w') -> all_clients Q w -> all_clients Q w'.
Proof.
  intros Q o w x w' M H S A i c G. apply (H i c); [|exact A|exact G]. eapply step_origin; eauto.
Qed.
