(** Programs on Windows and the past of their clients. *)

From Coq Require Import Ascii String List NArith ZArith Bool Lia.
From Verif Require Import Base ModelUtil ModelAddress ModelAttachment ModelMessage ModelReply ModelErrors ModelState ModelClient ModelWorld ModelWin
  SpecPast SpecPastWin ProofPast ProofPastWin.
Import ListNotations.
Open Scope Z_scope.

Lemma past_like : forall c1 c2, same_but_past c1 c2 -> c_log c1 = c_log c2 -> c_logsize c1 = c_logsize c2 -> exists r n a, c2 = hist r n a c1.
Proof. intros c1 c2 G E1 E2. pasts. fldin E1. fldin E2. subst. do 3 eexists. fldv. reflexivity. Qed.
Lemma past_nolog : forall c1 c2, same_but_past c1 c2 -> exists r n a l z, c2 = hist r n a (set_log l z c1).
Proof. intros c1 c2 G. pasts. do 5 eexists. fldv. reflexivity. Qed.
Lemma hist_log : forall r n a c, c_log (hist r n a c) = c_log c /\ c_logsize (hist r n a c) = c_logsize c.
Proof. intros. destruct c. split; reflexivity. Qed.

(** Destruction of a client that has neither a connection nor WinSock. *)
Lemma wdestroy_rest : forall v1 v2, anolog v1 v2 -> c_conn (v_c v1) = false -> v_on v1 = false -> let a := (cleanupW ;;# wret 0) v1 in let b := (cleanupW ;;# wret 0) v2 in
  fst a = fst b /\ v_on (snd a) = v_on (snd b) /\ v_e (snd a) = v_e (snd b) /\ v_w (snd a) = v_w (snd b) /\ v_t (snd a) = v_t (snd b).
Proof.
  intros v1 v2 L C O a b. destruct L as ((r & n & x & l & z & E) & On & Ee & Ew & Et). subst a b. unfold cleanupW, cleanup_fuel.
  destruct v1 as [c1 o1 e1 w1 t1], v2 as [c2 o2 e2 w2 t2]. cbn [v_c v_on v_e v_w v_t] in *. subst e2 w2 t2 c2 o2 o1. destruct c1. fldin C. subst.
  cbn [cleanup_fW]. unfold free_tls, close_socketW, release_winsock, get_on, set_on, wput, close_socket, wbind, wret, base, bind, getc, updc, emit, emits, ret.
  cbn [v_c v_on v_e v_w v_t]. flds. rewrite !andb_false_r.
  repeat (match goal with |- context [match ?x with _ => _ end] => is_var x; destruct x end; cbn [v_c v_on v_e v_w v_t]; flds).
  all: repeat (match goal with |- context [Z.eqb ?x 0] => destruct (Z.eqb x 0) end; cbn [v_c v_on v_e v_w v_t map app]; flds).
  all: repeat split; reflexivity.
Qed.

Definition logs_of (c : client) := (c_log c, c_logsize c).
Definition moved_by (o : op) (i : nat) : bool := match o with OMove j => Nat.eqb i j | _ => false end.
Lemma get_push : forall w c i c', get_client (push_client c w) i = Some c' -> get_client w i = Some c' \/ i = length (w_clients w).
Proof.
  intros w c i c'. unfold get_client. cbn [push_client w_clients]. intros H. destruct (Nat.lt_ge_cases i (length (w_clients w))) as [L|L].
  - rewrite nth_error_app1 in H by exact L. auto.
  - right. rewrite nth_error_app2 in H by exact L. destruct (i - length (w_clients w))%nat eqn:E; [lia|]. cbn in H. rewrite (proj2 (nth_error_None _ _)) in H by (cbn; lia). discriminate.
Qed.
Lemma get_put : forall w i v j c', get_client (put_client i (Some v) w) j = Some c' -> (j = i /\ c' = v) \/ j <> i /\ get_client w j = Some c'.
Proof.
  intros w i v j c'. unfold get_client. cbn [put_client w_clients]. generalize (w_clients w). revert i j.
  intros i j l. revert i j. induction l as [|x l IH]; intros i j H. { destruct i, j; discriminate. }
  destruct i, j; cbn [list_set nth_error] in *.
  - injection H as <-. auto.
  - right. split; [discriminate|exact H].
  - right. split; [discriminate|exact H].
  - destruct (IH i j H) as [[-> E]|[N E]]; [left; auto|right]. split; [congruence|exact E].
Qed.
Lemma create_logs : forall x w i c', get_client (snd (create x w)) i = Some c' -> (i < length (w_clients w))%nat -> get_client w i = Some c'.
Proof. intros x w i c' H L. destruct x; cbn [create snd] in H; try exact H. apply get_push in H as [H|H]; [exact H|lia]. Qed.
Lemma alter_logs : forall j f w i c', (forall a b, f a = Done b -> logs_of b = logs_of a) -> get_client (snd (alter j f w)) i = Some c' ->
  exists c, get_client w i = Some c /\ logs_of c' = logs_of c.
Proof.
  intros j f w i c' F H. unfold alter in H. destruct (get_client w j) as [a|] eqn:G; [|exists c'; split; [exact H|reflexivity]].
  specialize (F a). destruct (f a) as [b| | | | |]; cbn [snd] in H; try (exists c'; split; [exact H|reflexivity]).
  apply get_put in H as [[-> ->]|[_ H]]; [exists a; split; [exact G|apply F; reflexivity]|exists c'; split; [exact H|reflexivity]].
Qed.
Lemma step_logs : forall o w i c', no_assignment o -> (forall j m, o <> OSend j m) -> (forall j, o <> ODestroy j) ->
  get_client (snd (step o w)) i = Some c' -> (i < length (w_clients w))%nat ->
  exists c, get_client w i = Some c /\ logs_of c' = if moved_by o i then (None, 0%N) else logs_of c.
Proof.
  intros o w i c' NA NS ND H L. destruct o; cbn [step moved_by] in *; try contradiction.
  - exists c'. split; [exact (create_logs _ _ _ _ H L)|reflexivity].
  - exists c'. split; [|reflexivity]. destruct (get_client w src); [exact (create_logs _ _ _ _ H L)|exact H].
  - destruct (get_client w src) as [a|] eqn:G; cbn [snd] in H.
    + apply get_push in H as [H|H]; [|exfalso; cbn [put_client w_clients] in H; revert H L; generalize (w_clients w); intros l; assert (Q : forall (l : list (option client)) k v, length (list_set l k v) = length l) by (induction l0 as [|y l0 IH]; intros [|k] v; cbn; auto); rewrite Q; lia].
      apply get_put in H as [[-> ->]|[N H]]; [exists a; split; [exact G|rewrite PeanoNat.Nat.eqb_refl; reflexivity]|].
      exists c'. split; [exact H|]. rewrite (proj2 (PeanoNat.Nat.eqb_neq i src) N). reflexivity.
    + destruct (Nat.eqb i src) eqn:E; [apply PeanoNat.Nat.eqb_eq in E; congruence|]. exists c'. split; [exact H|reflexivity].
  - exfalso. exact (NS _ _ eq_refl).
  - eapply alter_logs; [|exact H]. intros a b. unfold client_setServerName, obind. destruct (check_server_name server); try discriminate. intros E. injection E as <-. reflexivity.
  - eapply alter_logs; [|exact H]. intros a b0 E. injection E as <-. reflexivity.
  - eapply alter_logs; [|exact H]. intros a b0 E. injection E as <-. reflexivity.
  - eapply alter_logs; [|exact H]. intros a b0 E. injection E as <-. reflexivity.
  - eapply alter_logs; [|exact H]. intros a b0 E. injection E as <-. reflexivity.
  - eapply alter_logs; [|exact H]. intros a b0 E. injection E as <-. reflexivity.
  - eapply alter_logs; [|exact H]. intros a b0. cbv beta. destruct (c_kind a); intros E; try discriminate; injection E as <-; reflexivity.
  - exfalso. exact (ND _ eq_refl).
Qed.
Lemma list_set_length : forall {A} (l : list A) k v, length (list_set l k v) = length l.
Proof. induction l as [|y l IH]; intros [|k] v; cbn; auto. Qed.
Lemma step_length : forall o w, (length (w_clients w) <= length (w_clients (snd (step o w))))%nat.
Proof.
  assert (C : forall x w, (length (w_clients w) <= length (w_clients (snd (create x w))))%nat) by (intros [] w; cbn; rewrite ?app_length; lia).
  assert (L : forall i f w, (length (w_clients w) <= length (w_clients (snd (alter i f w))))%nat).
  { intros i f w. unfold alter. destruct (get_client w i) as [c|]; [|cbn; lia]. destruct (f c); cbn; rewrite ?list_set_length; lia. }
  intros o w. destruct o; cbn [step]; try apply C; try apply L.
  - destruct (get_client w src); [apply C|cbn; lia].
  - destruct (get_client w src); cbn; rewrite ?app_length, ?list_set_length; lia.
  - destruct (get_client w dst), (get_client w src); try (cbn; lia). destruct (Nat.eqb _ _); [cbn; lia|]. destruct (kind_eqb _ _); [apply L|cbn; lia].
  - destruct (get_client w dst), (get_client w src); try (cbn; lia). destruct (Nat.eqb _ _); [cbn; lia|]. destruct (kind_eqb _ _); cbn; rewrite ?list_set_length; lia.
  - unfold run_on. destruct (get_client w i); [|cbn; lia]. destruct (sendMail _ _). cbn. rewrite list_set_length. lia.
  - unfold run_on. destruct (get_client w i); [|cbn; lia]. destruct (bind cleanup (fun _ => ret 0) _). cbn. rewrite list_set_length. lia.
Qed.
Lemma world_length : forall w1 w2, same_world w1 w2 -> length (w_clients w1) = length (w_clients w2).
Proof. intros w1 w2 (F & _). induction F; cbn; auto. Qed.
Lemma nth_set : forall (l : list bool) i j v, (i <> j)%nat -> nth i (list_set l j v) false = nth i l false.
Proof. induction l as [|x l IH]; intros i j v N; [destruct i, j; reflexivity|]. destruct i, j; cbn; auto; contradiction. Qed.
Lemma get_set : forall w i v e t j c', get_client (mkWorld (list_set (w_clients w) i v) e t) j = Some c' -> j = i \/ j <> i /\ get_client w j = Some c'.
Proof.
  intros w i v e t j c'. unfold get_client. cbn [w_clients]. generalize (w_clients w). intros l. revert i j. induction l as [|x l IH]; intros i j H. { destruct i, j; discriminate. }
  destruct i, j; cbn [list_set nth_error] in *; auto. destruct (IH i j H) as [->|[N E]]; auto.
Qed.
Lemma get_set_eq : forall w i v e t c', get_client (mkWorld (list_set (w_clients w) i v) e t) i = Some c' -> v = Some c'.
Proof.
  intros w i v e t c'. unfold get_client. cbn [w_clients]. generalize (w_clients w). intros l. revert i. induction l as [|x l IH]; intros i H. { destruct i; discriminate. }
  destruct i; cbn [list_set nth_error] in *; [destruct v; [injection H as <-; reflexivity|discriminate]|exact (IH i H)].
Qed.

(** Calls on one client. *)
Lemma run_on_same : forall {A} i (m : W A) f w1 w2,
  same_wworld w1 w2 ->
  (forall c1 c2, get_client (ww w1) i = Some c1 -> get_client (ww w2) i = Some c2 ->
    let a := m (mkV c1 (nth i (ww_on w1) false) (w_env (ww w1)) (ww_env w1) (ww_trace w1)) in let b := m (mkV c2 (nth i (ww_on w1) false) (w_env (ww w1)) (ww_env w1) (ww_trace w1)) in
    fst a = fst b /\ v_on (snd a) = v_on (snd b) /\ v_e (snd a) = v_e (snd b) /\ v_w (snd a) = v_w (snd b) /\ v_t (snd a) = v_t (snd b) /\
    same_object (f (v_c (snd a))) (f (v_c (snd b))) /\ forall d1 d2, f (v_c (snd a)) = Some d1 -> f (v_c (snd b)) = Some d2 -> c_log d1 = c_log d2 /\ c_logsize d1 = c_logsize d2) ->
  fst (run_onW i m f w1) = fst (run_onW i m f w2) /\ same_wworld (snd (run_onW i m f w1)) (snd (run_onW i m f w2)).
Proof.
  intros A i m f w1 w2 S H. pose proof S as (W & On & Ew & Et & Len & Lg). pose proof (get_same _ _ i W) as G. unfold run_onW.
  destruct (get_client (ww w1) i) as [c1|] eqn:G1, (get_client (ww w2) i) as [c2|] eqn:G2; try contradiction; [|split; [reflexivity|exact S]].
  specialize (H c1 c2 eq_refl eq_refl). pose proof W as (F & Ee & _). rewrite <- On, <- Ew, <- Et, <- Ee. cbv zeta in H.
  destruct (m (mkV c1 _ _ _ _)) as [o1 q1], (m (mkV c2 _ _ _ _)) as [o2 q2]. cbn [fst snd] in *. destruct H as (Eo & E1 & E2 & E3 & E4 & So & Lo).
  split; [exact Eo|]. rewrite E1, E2, E3, E4. split; [|split; [reflexivity|split; [reflexivity|split; [reflexivity|split]]]]; cbn [ww ww_on w_clients].
  - split; [cbn [w_clients]; apply set_same; assumption|split; reflexivity].
  - rewrite !list_set_length. exact Len.
  - intros j d1 d2 T X Y. destruct (get_set _ _ _ _ _ _ _ X) as [->|[N X']].
    + apply get_set_eq in X, Y. exact (Lo _ _ X Y).
    + destruct (get_set _ _ _ _ _ _ _ Y) as [->|[_ Y']]; [contradiction|]. rewrite nth_set in T by exact N. exact (Lg j d1 d2 T X' Y').
Qed.
Lemma wstep_same : forall o w1 w2, no_assignment o -> same_wworld w1 w2 -> fst (wstep o w1) = fst (wstep o w2) /\ same_wworld (snd (wstep o w1)) (snd (wstep o w2)).
Proof.
  intros o w1 w2 NA S. pose proof S as (W & On & Ew & Et & Len & Lg).
  assert (Plain : (forall j m, o <> OSend j m) -> (forall j, o <> ODestroy j) ->
    let r w := let '(x, w') := step o (ww w) in (x, mkWW w' (ww_on w ++ repeat false (length (w_clients w') - length (w_clients (ww w)))) (ww_env w) (ww_trace w)) in
    fst (r w1) = fst (r w2) /\ same_wworld (snd (r w1)) (snd (r w2))).
  { intros NS ND r. unfold r. destruct (step_same o _ _ W) as [E W'].
    pose proof (step_logs o (ww w1)) as L1. pose proof (step_logs o (ww w2)) as L2. pose proof (step_length o (ww w1)) as K. pose proof (world_length _ _ W) as Z1. pose proof (world_length _ _ W') as Z2.
    destruct (step o (ww w1)) as [x1 u1], (step o (ww w2)) as [x2 u2]. cbn [fst snd] in *. split; [exact E|].
    rewrite <- On, <- Ew, <- Et, <- Z1, <- Z2. split; [exact W'|]. split; [reflexivity|split; [reflexivity|split; [reflexivity|]]]. cbn [ww ww_on]. split.
    - rewrite app_length, repeat_length, Len. lia.
    - intros i d1 d2 T X Y. destruct (Nat.lt_ge_cases i (length (w_clients (ww w1)))) as [Lt|Ge].
      + rewrite app_nth1 in T by lia. destruct (L1 i d1 NA NS ND X Lt) as (c1 & G1 & M1). rewrite Z1 in Lt. destruct (L2 i d2 NA NS ND Y Lt) as (c2 & G2 & M2).
        destruct (Lg i c1 c2 T G1 G2) as [P Q]. assert (M : logs_of d1 = logs_of d2) by (rewrite M1, M2; destruct (moved_by o i); [reflexivity|unfold logs_of; congruence]).
        unfold logs_of in M. split; congruence.
      + exfalso. rewrite app_nth2 in T by lia. assert (Q : forall n k, nth k (repeat false n) false = false) by (clear; induction n as [|n IH]; intros [|k]; cbn; auto). rewrite Q in T. discriminate. }
  destruct o; cbn [wstep]; try (apply Plain; discriminate).
  - apply run_on_same; [exact S|]. intros c1 c2 G1 G2. pose proof (get_same _ _ i W) as G. rewrite G1, G2 in G. cbn [same_object] in G.
    assert (R : wready (mkV c1 (nth i (ww_on w1) false) (w_env (ww w1)) (ww_env w1) (ww_trace w1)) (mkV c2 (nth i (ww_on w1) false) (w_env (ww w1)) (ww_env w1) (ww_trace w1))).
    { unfold wready. cbn [v_c]. destruct (c_conn c1) eqn:C.
      - destruct G as (g1 & g2 & g3 & g4 & g5 & g6 & g7 & g8 & g9 & g10 & g11 & g12 & g13 & g14) eqn:Eg. destruct (g14 C) as [P Q]. split; [exact (past_like c1 c2 G P Q)|]. split; [exact Logic.I|repeat split].
      - split; [exact (past_nolog c1 c2 G)|repeat split]. }
    intros a b. destruct (wrel_send m _ _ R) as (E & ((r & n & x & L) & _ & O & Ee & E3 & E4) & _). fold a b in E, L, O, Ee, E3, E4. repeat (split; [assumption|]). split.
    + cbn [same_object]. rewrite L. unfold same_but_past. destruct (v_c (snd a)). cbn. repeat (apply conj; [reflexivity|]). intros _. split; reflexivity.
    + intros d1 d2 D1 D2. injection D1 as <-. injection D2 as <-. rewrite L. destruct (hist_log r n x (v_c (snd a))) as [P Q]. split; symmetry; assumption.
  - apply run_on_same; [exact S|]. intros c1 c2 G1 G2. pose proof (get_same _ _ i W) as G. rewrite G1, G2 in G. cbn [same_object] in G. intros a b.
    assert (Z0 : fst a = fst b /\ v_on (snd a) = v_on (snd b) /\ v_e (snd a) = v_e (snd b) /\ v_w (snd a) = v_w (snd b) /\ v_t (snd a) = v_t (snd b)).
    { assert (D : (exists r n x, c2 = hist r n x c1) -> fst a = fst b /\ v_on (snd a) = v_on (snd b) /\ v_e (snd a) = v_e (snd b) /\ v_w (snd a) = v_w (snd b) /\ v_t (snd a) = v_t (snd b)).
      { intros D. assert (V : wob (cleanupW ;;# wret 0)) by (wsb; apply wob_cleanup).
        destruct (V (mkV c1 (nth i (ww_on w1) false) (w_env (ww w1)) (ww_env w1) (ww_trace w1)) (mkV c2 (nth i (ww_on w1) false) (w_env (ww w1)) (ww_env w1) (ww_trace w1))) as (E & (_ & _ & O) & _).
        { split; [exact D|]. split; [exact Logic.I|repeat split]. }
        split; [exact E|exact O]. }
      destruct (nth i (ww_on w1) false) eqn:O.
      - destruct (Lg i c1 c2 O G1 G2) as [P Q]. apply D. exact (past_like c1 c2 G P Q).
      - destruct (c_conn c1) eqn:C.
        + apply D. destruct G as (g1 & g2 & g3 & g4 & g5 & g6 & g7 & g8 & g9 & g10 & g11 & g12 & g13 & g14) eqn:Eg. destruct (g14 C) as [P Q]. exact (past_like c1 c2 G P Q).
        + apply wdestroy_rest; [|exact C|reflexivity]. split; [exact (past_nolog c1 c2 G)|repeat split]. }
    destruct Z0 as (Z1 & Z2 & Z3 & Z4 & Z5). refine (conj Z1 (conj Z2 (conj Z3 (conj Z4 (conj Z5 (conj Logic.I _)))))). discriminate.
Qed.
Lemma wrun_same : forall ops w1 w2, Forall no_assignment ops -> same_wworld w1 w2 -> fst (wrun ops w1) = fst (wrun ops w2) /\ same_wworld (snd (wrun ops w1)) (snd (wrun ops w2)).
Proof.
  induction ops as [|o ops IH]; intros w1 w2 N W; cbn [wrun]; [split; [reflexivity|exact W]|]. inversion N as [|? ? N1 N2]; subst.
  destruct (wstep_same o w1 w2 N1 W) as [E W']. destruct (wstep o w1) as [x1 v1], (wstep o w2) as [x2 v2]. cbn [fst snd] in *. subst x2.
  destruct (continues x1); [|split; [reflexivity|exact W']]. destruct (IH v1 v2 N2 W') as [E' W'']. destruct (wrun ops v1), (wrun ops v2). cbn [fst snd] in *. subst. split; [reflexivity|exact W''].
Qed.

Lemma put_past : forall w i c c', get_client w i = Some c -> same_but_past c c' -> same_world w (put_client i (Some c') w).
Proof.
  intros w i c c' G R. split; [|split; reflexivity]. unfold get_client in G. cbn [put_client w_clients]. revert i G. induction (w_clients w) as [|x l IH]; intros i G; [destruct i; constructor|].
  assert (Q : forall l, Forall2 same_object l l) by (clear; induction l as [|[c|] l IH]; constructor; auto; [apply new_past|exact Logic.I]).
  destruct i; cbn [nth_error list_set] in *; constructor; auto.
  - destruct x as [x|]; [|discriminate]. injection G as ->. exact R.
  - destruct x; cbn; [apply new_past|exact Logic.I].
Qed.
Lemma with_same : forall w i c c', get_client (ww w) i = Some c -> same_but_past c c' -> length (ww_on w) = length (w_clients (ww w)) -> nth i (ww_on w) false = false ->
  same_wworld w (with_client i c' w).
Proof.
  intros w i c c' G R L O. split; [exact (put_past _ _ _ _ G R)|]. split; [reflexivity|]. split; [reflexivity|]. split; [reflexivity|]. split; [exact L|].
  intros j c1 c2 T X Y. cbn [with_client ww] in Y. apply get_put in Y as [[-> ->]|[N Y]]; [congruence|]. rewrite X in Y. injection Y as <-. split; reflexivity.
Qed.
