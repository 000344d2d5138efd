(** Copies and moves of clients. *)

From Coq Require Import Ascii String List NArith ZArith Bool Lia.
From Verif Require Import Base ModelUtil ModelAddress ModelAttachment ModelMessage ModelReply ModelState ModelClient ModelWorld
  SpecOwn ProofWorld ProofOwn ProofOwn2.
Import ListNotations.
Open Scope Z_scope.

Lemma get_push_new : forall w c, get_client (push_client c w) (next_client w) = Some c.
Proof.
  intros w c. unfold get_client, push_client, next_client. cbn [w_clients].
  rewrite nth_error_app2 by apply Nat.le_refl. rewrite Nat.sub_diag. reflexivity.
Qed.
Lemma get_push_old : forall w c k, k <> next_client w -> get_client (push_client c w) k = get_client w k.
Proof.
  intros w c k H. unfold get_client, push_client, next_client in *. cbn [w_clients].
  destruct (Nat.lt_ge_cases k (length (w_clients w))) as [L|L].
  - rewrite nth_error_app1 by exact L. reflexivity.
  - rewrite nth_error_app2 by exact L. destruct (k - length (w_clients w))%nat as [|[|d]] eqn:E.
    + exfalso. apply H. apply Nat.le_antisymm; [|exact L]. apply Nat.sub_0_le. exact E.
    + cbn. rewrite (proj2 (nth_error_None (w_clients w) k) L). reflexivity.
    + cbn. rewrite (proj2 (nth_error_None (w_clients w) k) L). reflexivity.
Qed.
Lemma list_set_length : forall A (l : list A) i v, length (list_set l i v) = length l.
Proof. induction l as [|x l IH]; intros [|i] v; cbn; auto. Qed.
Lemma next_put : forall w i v, next_client (put_client i v w) = next_client w.
Proof. intros. unfold next_client, put_client. cbn [w_clients]. apply list_set_length. Qed.
Lemma list_set_other : forall A (l : list A) i k v, k <> i -> nth_error (list_set l i v) k = nth_error l k.
Proof. induction l as [|x l IH]; intros [|i] [|k] v H; cbn; auto; try congruence. Qed.
Lemma get_put_other : forall w i k v, k <> i -> get_client (put_client i v w) k = get_client w k.
Proof. intros. unfold get_client, put_client. cbn [w_clients]. rewrite list_set_other by assumption. reflexivity. Qed.
Lemma get_bound : forall w i c, get_client w i = Some c -> (i < next_client w)%nat.
Proof.
  intros w i c H. unfold get_client in H. unfold next_client. apply nth_error_Some. destruct (nth_error (w_clients w) i); congruence.
Qed.

Lemma kind_eqb_eq : forall a b, kind_eqb a b = true -> a = b.
Proof. intros [] [] H; try reflexivity; discriminate H. Qed.

Lemma copy_same : forall c c', client_copy c = Done c' -> same_settings c c' /\ same_results c c' /\ disconnected c'.
Proof.
  intros c c' H. unfold client_copy in H. destruct (c_server c) as [name|] eqn:E; [|discriminate H]. injection H as <-.
  unfold same_settings, same_results, disconnected, getCommunicationLog. cbn. rewrite E.
  destruct (c_log c); repeat split; reflexivity.
Qed.
Lemma assign_same : forall d c c', c_kind d = c_kind c -> client_assign d c = Done c' -> same_settings c c' /\ same_results c c' /\ disconnected c'.
Proof.
  intros d c c' K H. unfold client_assign in H. destruct (c_server c) as [name|] eqn:E; [|discriminate H]. injection H as <-.
  unfold same_settings, same_results, disconnected, getCommunicationLog. cbn. rewrite E.
  destruct (c_log c); repeat split; auto.
Qed.
Lemma move_same : forall c, same_settings c (client_move c) /\ same_results c (client_move c) /\ same_connection c (client_move c).
Proof. intros. unfold same_settings, same_results, same_connection, getCommunicationLog. cbn. repeat split; reflexivity. Qed.
Lemma move_assign_same : forall d c, c_kind d = c_kind c ->
  same_settings c (client_move_assign d c) /\ same_results c (client_move_assign d c) /\ same_connection c (client_move_assign d c).
Proof. intros. unfold same_settings, same_results, same_connection, getCommunicationLog. cbn. repeat split; auto. Qed.
Lemma moved_empty : forall c, emptied (client_moved c).
Proof. intros. unfold emptied, disconnected, getCommunicationLog. cbn. repeat split; reflexivity. Qed.

Lemma copy_step : forall i w w', step (OCopy i) w = (Done 0, w') ->
  exists c c', get_client w i = Some c /\ get_client w' (next_client w) = Some c' /\
    same_settings c c' /\ same_results c c' /\ disconnected c' /\
    others_same [next_client w] w w' /\ no_effect w w'.
Proof.
  intros i w w' H. cbn [step] in H. destruct (get_client w i) as [c|] eqn:G; [|discriminate H].
  unfold create in H. destruct (client_copy c) as [c'| | | | |] eqn:E; try discriminate H. injection H as <-.
  destruct (copy_same _ _ E) as (A1 & A2 & A3). exists c, c'. split; [reflexivity|]. split; [apply get_push_new|].
  do 3 (split; [assumption|]). split; [|split; reflexivity].
  intros k K. apply get_push_old. intros ->. apply K. left. reflexivity.
Qed.
Lemma move_step : forall i w w', step (OMove i) w = (Done 0, w') ->
  exists c c' e, get_client w i = Some c /\ get_client w' (next_client w) = Some c' /\ get_client w' i = Some e /\
    same_settings c c' /\ same_results c c' /\ same_connection c c' /\ emptied e /\
    others_same [i; next_client w] w w' /\ no_effect w w'.
Proof.
  intros i w w' H. cbn [step] in H. destruct (get_client w i) as [c|] eqn:G; [|discriminate H]. injection H as <-.
  destruct (move_same c) as (A1 & A2 & A3). pose proof (get_bound _ _ _ G) as L.
  exists c, (client_move c), (client_moved c). split; [reflexivity|].
  split; [rewrite <- (next_put w i (Some (client_moved c))); apply get_push_new|].
  split; [rewrite get_push_old by (rewrite next_put; intros ->; exact (Nat.lt_irrefl _ L)); eapply get_put_eq; eassumption|].
  do 3 (split; [assumption|]). split; [apply moved_empty|]. split; [|split; reflexivity].
  intros k K. rewrite get_push_old by (rewrite next_put; intros ->; apply K; right; left; reflexivity).
  apply get_put_other. intros ->. apply K. left. reflexivity.
Qed.
Lemma copy_assign_step : forall i j w w', i <> j -> step (OCopyAssign i j) w = (Done 0, w') ->
  exists c c', get_client w j = Some c /\ get_client w' i = Some c' /\
    same_settings c c' /\ same_results c c' /\ disconnected c' /\ others_same [i] w w' /\ no_effect w w'.
Proof.
  intros i j w w' N H. cbn [step] in H. destruct (get_client w i) as [d|] eqn:Gi; [|discriminate H].
  destruct (get_client w j) as [c|] eqn:Gj; [|discriminate H].
  rewrite (proj2 (Nat.eqb_neq i j) N) in H. destruct (kind_eqb (c_kind d) (c_kind c)) eqn:K; [|discriminate H].
  apply kind_eqb_eq in K. unfold alter in H. rewrite Gi in H.
  destruct (client_assign d c) as [c'| | | | |] eqn:E; try discriminate H. injection H as <-.
  destruct (assign_same _ _ _ K E) as (A1 & A2 & A3). exists c, c'. split; [reflexivity|]. split; [eapply get_put_eq; eassumption|].
  do 3 (split; [assumption|]). split; [|split; reflexivity].
  intros k Kk. apply get_put_other. intros ->. apply Kk. left. reflexivity.
Qed.
Lemma move_assign_step : forall i j w w', i <> j -> step (OMoveAssign i j) w = (Done 0, w') ->
  exists c c' e, get_client w j = Some c /\ get_client w' i = Some c' /\ get_client w' j = Some e /\
    same_settings c c' /\ same_results c c' /\ same_connection c c' /\ emptied e /\ others_same [i; j] w w' /\ no_effect w w'.
Proof.
  intros i j w w' N H. cbn [step] in H. destruct (get_client w i) as [d|] eqn:Gi; [|discriminate H].
  destruct (get_client w j) as [c|] eqn:Gj; [|discriminate H].
  rewrite (proj2 (Nat.eqb_neq i j) N) in H. destruct (kind_eqb (c_kind d) (c_kind c)) eqn:K; [|discriminate H].
  apply kind_eqb_eq in K. injection H as <-.
  destruct (move_assign_same _ _ K) as (A1 & A2 & A3). exists c, (client_move_assign d c), (client_moved c). split; [reflexivity|].
  split; [rewrite get_put_other by assumption; eapply get_put_eq; eassumption|].
  split; [apply (get_put_eq _ j c); rewrite get_put_other by auto; assumption|].
  do 3 (split; [assumption|]). split; [apply moved_empty|]. split; [|split; reflexivity].
  intros k Kk. rewrite get_put_other by (intros ->; apply Kk; right; left; reflexivity).
  apply get_put_other. intros ->. apply Kk. left. reflexivity.
Qed.
Lemma self_assign_step : forall i w c, get_client w i = Some c ->
  step (OCopyAssign i i) w = (Done 0, w) /\ step (OMoveAssign i i) w = (Done 0, w).
Proof. intros i w c G. cbn [step]. rewrite G, Nat.eqb_refl. split; reflexivity. Qed.

(** Copies succeed when the source has a server name, moves always. *)
Lemma copy_succeeds : forall i w c, get_client w i = Some c -> c_server c <> None -> fst (step (OCopy i) w) = Done 0.
Proof.
  intros i w c G S. cbn [step]. rewrite G. unfold client_copy. destruct (c_server c); [reflexivity|contradiction].
Qed.
Lemma copy_assign_succeeds : forall i j w d c, get_client w i = Some d -> get_client w j = Some c -> c_kind d = c_kind c ->
  c_server c <> None -> fst (step (OCopyAssign i j) w) = Done 0.
Proof.
  intros i j w d c Gi Gj K S. cbn [step]. rewrite Gi, Gj. destruct (Nat.eqb i j); [reflexivity|].
  rewrite K. destruct (c_kind c); cbn [kind_eqb]; unfold alter; rewrite Gi; unfold client_assign; destruct (c_server c); try contradiction; reflexivity.
Qed.
Lemma move_succeeds : forall i w c, get_client w i = Some c -> fst (step (OMove i) w) = Done 0.
Proof. intros i w c G. cbn [step]. rewrite G. reflexivity. Qed.
Lemma move_assign_succeeds : forall i j w d c, get_client w i = Some d -> get_client w j = Some c -> c_kind d = c_kind c ->
  fst (step (OMoveAssign i j) w) = Done 0.
Proof.
  intros i j w d c Gi Gj K. cbn [step]. rewrite Gi, Gj. destruct (Nat.eqb i j); [reflexivity|].
  rewrite K. destruct (c_kind c); reflexivity.
Qed.

(** All clients destroyed. *)
Lemma no_leak_all : forall e ops, careful ops (initial_world e) -> destroyed_ok ops (fst (run ops (initial_world e))) ->
  (forall i, get_client (snd (run ops (initial_world e))) i = None) ->
  forall x, In x (open_in sockets (w_trace (snd (run ops (initial_world e))))) -> x = 0.
Proof.
  intros e ops Hc Hd Hn x H. destruct (Z.eq_dec x 0) as [|N]; [assumption|].
  destruct (no_leak e ops Hc Hd x H N) as (i & c & G & _). rewrite Hn in G. discriminate G.
Qed.
Lemma no_leak_sent_all : forall e ops,
  (forall i j, ~ In (OCopyAssign i j) ops) -> (forall i j, ~ In (OMoveAssign i j) ops) ->
  all_sent ops (fst (run ops (initial_world e))) -> destroyed_ok ops (fst (run ops (initial_world e))) ->
  (forall i, get_client (snd (run ops (initial_world e))) i = None) ->
  forall x, In x (open_in sockets (w_trace (snd (run ops (initial_world e))))) -> x = 0.
Proof.
  intros e ops H1 H2 Ha Hd Hn x H. destruct (Z.eq_dec x 0) as [|N]; [assumption|].
  destruct (no_leak_sent e ops H1 H2 Ha Hd x H N) as (i & c & G & _). rewrite Hn in G. discriminate G.
Qed.
