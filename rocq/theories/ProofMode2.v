(** The mode of the sockets in a program. *)

From Coq Require Import Ascii String List NArith ZArith Bool Lia.
From Verif Require Import Base ModelUtil ModelBase64 ModelAddress ModelAttachment
  ModelErrors ModelReply ModelMessage ModelState ModelClient ModelWorld ModelWin SpecMode SpecOwn ProofSteps ProofWorld ProofOwn ProofMode.
Import ListNotations.
Open Scope Z_scope.

Lemma polling_app fd t t' : polling fd (t ++ t') = fold_left (mode_after fd) t' (polling fd t).
Proof. unfold polling. apply fold_left_app. Qed.
Lemma polling_snoc fd t ev : polling fd (t ++ [ev]) = mode_after fd (polling fd t) ev.
Proof. now rewrite polling_app. Qed.

(** ** The events of one operation *)

Inductive moves (a : mst) : event -> mst -> Prop :=
| mv_socket n : pol a = false -> moves a (EvSocket (SkFd n)) (mkMst (Z.of_N n) false (wrote a) true true)
| mv_failed er : pol a = false -> moves a (EvSocket (SkErr er)) (mkMst (-1) false (wrote a) false false)
| mv_fcntl b : pol a = negb b -> ready a = true -> (b = true -> wrote a = true \/ made a = true) ->
    moves a (EvFcntl (cur a) (Some b) true) (mkMst (cur a) b (wrote a) (ready a) (made a))
| mv_write ev : pol a = false -> writes ev = true -> (forall fd b, mode_after fd b ev = b) -> (forall fd d r, ev = EvSend fd d r -> fd = cur a /\ ready a = true) ->
    moves a ev (mkMst (cur a) false true (ready a) (made a))
| mv_close : pol a = false -> moves a (EvClose (cur a)) (mkMst 0 false (wrote a) (ready a) false)
| mv_same ev : writes ev = false -> (forall fd, ev <> EvClose fd) -> (forall fd b, mode_after fd b ev = b) -> (uses_tls ev = true -> pol a = false) ->
    (forall fd r, ev = EvRecv fd r -> fd = cur a /\ pol a = wrote a) -> moves a ev a.
Lemma moved a ev a' : mstep a ev = Some a' -> switched ev -> moves a ev a'.
Proof.
  intros E S. destruct ev; cbn [mstep] in E; try (injection E as <-; constructor; try reflexivity; discriminate).
  - destruct r as [n|er]; unfold when in E; destruct (pol a) eqn:Q; try discriminate E; injection E as <-; now constructor.
  - destruct nonblock as [b|]; [|injection E as <-; constructor; try reflexivity; discriminate]. cbn in S. subst ok. unfold when in E.
    destruct ((fd =? cur a) && xorb b (pol a) && ready a && (negb b || wrote a || made a)) eqn:Q; [|discriminate E]. injection E as <-.
    apply andb_true_iff in Q as [Q Q4]. apply andb_true_iff in Q as [Q Q3]. apply andb_true_iff in Q as [Q1 Q2]. apply Z.eqb_eq in Q1. subst fd.
    constructor; [destruct b, (pol a); try reflexivity; discriminate Q2|exact Q3|]. intros ->. cbn in Q4. now apply orb_true_iff.
  - unfold when in E. destruct ((fd =? cur a) && negb (pol a)) eqn:Q; [|discriminate E]. injection E as <-. apply andb_true_iff in Q as [Q1 Q2]. apply Z.eqb_eq in Q1. subst fd.
    constructor. now destruct (pol a).
  - unfold when in E. destruct ((fd =? cur a) && negb (pol a) && ready a) eqn:Q; [|discriminate E]. injection E as <-. apply andb_true_iff in Q as [Q Q3]. apply andb_true_iff in Q as [Q1 Q2].
    apply Z.eqb_eq in Q1. constructor; [now destruct (pol a)|reflexivity|reflexivity|]. intros f d r0 X. injection X as <- _ _. auto.
  - unfold when in E. destruct ((fd =? cur a) && eqb (pol a) (wrote a)) eqn:Q; [|discriminate E]. injection E as <-. apply andb_true_iff in Q as [Q1 Q2]. apply Z.eqb_eq in Q1. apply eqb_prop in Q2.
    constructor; try reflexivity; try discriminate. intros f r0 X. injection X as <- _. auto.
  - unfold when in E. destruct (pol a) eqn:Q; [discriminate E|]. injection E as <-. constructor; try reflexivity; try assumption. intros f d r0 X. discriminate X.
  - unfold when in E. destruct (pol a) eqn:Q; [discriminate E|]. injection E as <-. constructor; try reflexivity; try discriminate; intros; assumption.
  - unfold when in E. destruct (pol a) eqn:Q; [discriminate E|]. injection E as <-. constructor; try reflexivity; try discriminate; intros; assumption.
Qed.

(** Along an accepted list of events, an invariant of the machine and of the
    events so far. *)
Lemma along (I : mst -> list event -> Prop) : (forall a ev a' p, moves a ev a' -> I a p -> I a' (p ++ [ev])) ->
  forall t a a' p, mrun a t = Some a' -> Forall switched t -> I a p -> I a' (p ++ t) /\
    (forall q ev r, t = q ++ ev :: r -> exists b b', I b (p ++ q) /\ moves b ev b').
Proof.
  intros H. induction t as [|x t IH]; intros a a' p R S J.
  - cbn in R. injection R as <-. rewrite app_nil_r. split; [exact J|]. intros [|] ? ? X; discriminate X.
  - cbn in R. destruct (mstep a x) as [b|] eqn:E; [|discriminate R]. inversion S as [|? ? S1 S2]; subst. pose proof (moved _ _ _ E S1) as Mv.
    destruct (IH b a' (p ++ [x]) R S2 (H _ _ _ _ Mv J)) as [J' K]. rewrite <- app_assoc in J'. split; [exact J'|].
    intros [|y q] ev r X; injection X as -> X.
    + subst. rewrite app_nil_r. exists a, b. auto.
    + destruct (K q ev r X) as (c & c' & Jc & Mc). exists c, c'. rewrite <- app_assoc in Jc. auto.
Qed.

(** [p]: the events since the operation began. *)
Definition tracks (a : mst) (p : list event) : Prop :=
  (forall fd, polling fd p = pol a && (fd =? cur a)) /\ wrote a = existsb writes p.
Lemma tracks_step a ev a' p : moves a ev a' -> tracks a p -> tracks a' (p ++ [ev]).
Proof.
  intros Mv [T W]. split; [intros fd; rewrite polling_snoc, (T fd)|rewrite existsb_app, <- W; cbn [existsb]; rewrite orb_false_r].
  - destruct Mv as [n P|er P|b P _ _|ev P _ N _|P|ev _ NX N _ _]; cbn [cur pol]; try rewrite N; try rewrite P; cbn [mode_after andb]; try reflexivity.
    + destruct (Z.of_N n =? fd); reflexivity.
    + rewrite (Z.eqb_sym (cur a) fd). destruct (fd =? cur a); [now rewrite andb_true_r|]. now rewrite !andb_false_r.
  - destruct Mv as [n P|er P|b P _ _|ev P Wr _ _|P|ev Wr _ _ _ _]; cbn [wrote writes]; rewrite ?Wr, ?orb_false_r, ?orb_true_r; reflexivity.
Qed.
Lemma tracks_start c : tracks (opstart c) [].
Proof. split; reflexivity. Qed.

Definition accepted (o : op) (x : outcome Z) (w w' : world) (t : list event) : Prop :=
  (t = [] /\ (forall i m, o <> OSend i m) /\ (forall i, o <> ODestroy i)) \/
  exists i c a', get_client w i = Some c /\ mrun (opstart c) t = Some a' /\ (continues x = true -> wrote a' = true -> pol a' = false) /\
    (continues x = true -> forall c', get_client w' i = Some c' -> c_conn c' = true -> cur a' = c_sock c' /\ pol a' = false /\ ready a' = true) /\
    (forall j, j <> i -> get_client w' j = get_client w j).
Lemma others_kept cs i v e t w : cs = list_set (w_clients w) i v -> forall j, j <> i -> get_client (mkWorld cs e t) j = get_client w j.
Proof. intros -> j N. unfold get_client. cbn. rewrite nth_list_set. destruct (Nat.eqb_spec i j); [congruence|reflexivity]. Qed.
Lemma same_get cs i v e t w c' : cs = list_set (w_clients w) i v -> get_client (mkWorld cs e t) i = Some c' -> v = Some c'.
Proof. intros -> H. unfold get_client in H. cbn in H. rewrite nth_list_set, Nat.eqb_refl in H. destruct (Nat.ltb _ _); [|discriminate H]. destruct v; [congruence|discriminate H]. Qed.
Lemma goes_continues {A} (o : outcome A) : goes o = continues o. Proof. now destruct o. Qed.
Lemma op_accepted o w x w' t : step o w = (x, w') -> w_trace w' = w_trace w ++ t -> Forall switched t -> get_client w (match o with OSend i _ | ODestroy i => i | _ => 0%nat end) <> None -> accepted o x w w' t.
Proof.
  intros H T S Ex. destruct o; try (left; split; [|split; discriminate];
    assert (E : w_trace w' = w_trace w) by (destruct (step_effect _ _ _ _ H) as [[E _]|[(? & ? & ? & X & _)|(? & ? & X & _)]]; [exact E|discriminate X|discriminate X]);
    rewrite E in T; rewrite <- (app_nil_r (w_trace w)) in T at 1; apply app_inv_head in T; now symmetry).
  - right. cbn [step] in H. destruct (get_client w i) as [c|] eqn:G; [|contradiction Ex; reflexivity]. destruct (op_machine _ _ _ _ _ _ _ G H) as (s & R & ->). cbn [w_trace] in T.
    destruct (ho_send m (mkSt c (w_env w) (w_trace w))) as (t' & T' & Y). rewrite R in T', Y. cbn [fst snd s_t s_c] in T', Y. rewrite T in T'. apply app_inv_head in T'. subst t'.
    destruct (Y (opstart c) S eq_refl) as (a' & Ra & D). exists i, c, a'. split; [exact G|]. split; [exact Ra|].
    assert (D' : continues x = true -> wrote a' = true \/ c_conn (s_c s) = true -> fit s a') by (rewrite <- goes_continues; unfold settle in D; destruct x; intros Q; try discriminate Q; apply D; reflexivity).
    split; [intros C W; apply D'; auto|]. split; [|exact (others_kept _ i (Some (s_c s)) _ _ w eq_refl)].
    intros C c' G' Q. apply (same_get _ i (Some (s_c s)) _ _ w _ eq_refl) in G'. injection G' as <-. apply D'; auto.
  - right. cbn [step] in H. destruct (get_client w i) as [c|] eqn:G; [|contradiction Ex; reflexivity]. destruct (op_machine _ _ _ _ _ _ _ G H) as (s & R & ->). cbn [w_trace] in T.
    set (s0 := mkSt c (w_env w) (w_trace w)) in *.
    assert (K : s_t (snd (cleanup s0)) = s_t s /\ (continues x = true -> continues (fst (cleanup s0)) = true)).
    { clear -R. unfold bind in R. destruct (cleanup s0) as [o s1]. cbn [fst snd]. destruct o; cbn in R; injection R as <- <-; auto. }
    destruct K as [K1 K2].
    assert (A : exists a', mrun (opstart c) t = Some a' /\ (continues x = true -> wrote a' = true -> pol a' = false)).
    { destruct (c_conn c) eqn:C.
      - destruct (ob_cleanup s0) as (t' & T' & Y). rewrite K1, T in T'. change (s_t s0) with (w_trace w) in T'. apply app_inv_head in T'. subst t'.
        destruct (Y (opstart c) S) as (a' & Ra & D & _); [unfold fit, opstart; cbn; auto|discriminate|]. exists a'. split; [exact Ra|]. intros Q _. rewrite goes_continues in D. apply D, K2, Q.
      - destruct (quiet_cleanup s0 C) as (t' & T' & Y). rewrite K1, T in T'. change (s_t s0) with (w_trace w) in T'. apply app_inv_head in T'. subst t'.
        destruct (Y (opstart c)) as (a' & Ra & D & D'); try reflexivity. exists a'. auto. }
    destruct A as (a' & Ra & D). exists i, c, a'. split; [exact G|]. split; [exact Ra|]. split; [exact D|].
    split; [|exact (others_kept _ i None _ _ w eq_refl)]. intros _ c' G'. apply (same_get _ i None _ _ w _ eq_refl) in G'. discriminate G'.
Qed.
Lemma missing o w x w' t : step o w = (x, w') -> w_trace w' = w_trace w ++ t -> get_client w (match o with OSend i _ | ODestroy i => i | _ => 0%nat end) = None ->
  (exists i m, o = OSend i m) \/ (exists i, o = ODestroy i) -> w' = w /\ t = [].
Proof.
  intros H T G [(i & m & ->)|(i & ->)]; cbn [step] in H; unfold run_on in H; rewrite G in H; injection H as <- <-; (split; [reflexivity|]);
    rewrite <- (app_nil_r (w_trace w)) in T at 1; apply app_inv_head in T; now symmetry.
Qed.

(** ** What one operation does *)

Lemma op_along o w x w' t : step o w = (x, w') -> w_trace w' = w_trace w ++ t -> Forall switched t ->
  (forall p ev q, t = p ++ ev :: q -> exists b b', tracks b p /\ moves b ev b') /\
  (continues x = true -> existsb writes t = true -> forall fd, polling fd t = false).
Proof.
  intros H T S. assert (A : t = [] \/ exists c a', mrun (opstart c) t = Some a' /\ (continues x = true -> wrote a' = true -> pol a' = false)).
  { destruct (get_client w (match o with OSend i _ | ODestroy i => i | _ => 0%nat end)) as [c|] eqn:G.
    - destruct (op_accepted o w x w' t H T S) as [[E _]|(i & c' & a' & _ & R & D & _)]; [now rewrite G|now left|right; eauto].
    - left. destruct (step_effect _ _ _ _ H) as [[E _]|[(i & m & c & -> & G' & _)|(i & c & -> & G' & _)]]; [|congruence|congruence].
      rewrite E in T. rewrite <- (app_nil_r (w_trace w)) in T at 1. apply app_inv_head in T. now symmetry. }
  destruct A as [->|(c & a' & R & D)].
  - split; [intros [|] ? ? X; discriminate X|discriminate].
  - destruct (along tracks tracks_step t (opstart c) a' [] R S (tracks_start c)) as [[J1 J2] K]. split; [exact K|].
    intros C W fd. cbn [app] in *. rewrite W in J2. rewrite J1, (D C J2). reflexivity.
Qed.
Lemma op_writes o w x w' t p ev q : step o w = (x, w') -> w_trace w' = w_trace w ++ t -> Forall switched t -> t = p ++ ev :: q ->
  writes ev = true \/ uses_tls ev = true -> forall fd, polling fd p = false.
Proof.
  intros H T S E Q fd. destruct (op_along o w x w' t H T S) as [K _]. destruct (K p ev q E) as (b & b' & [J _] & Mv). rewrite J.
  assert (P : pol b = false).
  { destruct Mv as [n P|er P|? P _ _|ev P _ N _|P|ev W _ _ U _]; try exact P; destruct Q as [Q|Q]; try discriminate Q; [congruence|apply U, Q]. }
  now rewrite P.
Qed.
Lemma op_recv o w x w' t p fd r q : step o w = (x, w') -> w_trace w' = w_trace w ++ t -> Forall switched t -> t = p ++ EvRecv fd r :: q ->
  polling fd p = existsb writes p.
Proof.
  intros H T S E. destruct (op_along o w x w' t H T S) as [K _]. destruct (K p _ q E) as (b & b' & [J W] & Mv). rewrite J, <- W.
  inversion Mv as [| | |ev P Wr|  |ev W' NX N U R]; subst; [discriminate Wr|]. destruct (R _ _ eq_refl) as [-> ->]. now rewrite Z.eqb_refl, andb_true_r.
Qed.
Lemma op_left o w x w' t : step o w = (x, w') -> w_trace w' = w_trace w ++ t -> Forall switched t -> continues x = true -> existsb writes t = true -> forall fd, polling fd t = false.
Proof. intros H T S. destruct (op_along o w x w' t H T S) as [_ K]. exact K. Qed.

(** ** Programs *)

(** [T]: all events of the program so far. *)
Definition links (a : mst) (T : list event) : Prop :=
  (ready a = true -> polling (cur a) T = pol a) /\ (polling 0 T = true -> cur a = 0 /\ ready a = true) /\ (made a = true -> cur a <> 0) /\
  (pol a = true -> wrote a = false -> cur a <> 0) /\ (ready a = true -> 0 <= cur a).
Lemma links_step a ev a' T : moves a ev a' -> not_zero ev -> links a T -> links a' (T ++ [ev]).
Proof.
  intros Mv Z0 (L1 & L2 & L3 & L4 & L5). unfold links. rewrite !polling_snoc.
  assert (OFF : pol a = false -> polling 0 T = false).
  { intros P. destruct (polling 0 T) eqn:Q; [|reflexivity]. destruct (L2 eq_refl) as [C R]. specialize (L1 R). rewrite C in L1. congruence. }
  destruct Mv as [n P|er P|b P R Wm|ev P Wr N _|P|ev Wr NX N _ _]; cbn [cur pol wrote ready made mode_after]; rewrite ?N.
  - assert (Nz : Z.of_N n <> 0) by (intros E; apply Z0; f_equal; f_equal; lia). rewrite Z.eqb_refl. destruct (Z.eqb_spec (Z.of_N n) 0) as [E|E]; [contradiction|].
    rewrite (OFF P). repeat split; intros; try discriminate; try assumption. lia.
  - rewrite (OFF P). repeat split; intros; discriminate.
  - rewrite Z.eqb_refl. split; [reflexivity|]. split; [|split; [exact L3|split; [|exact L5]]].
    + destruct (Z.eqb_spec (cur a) 0) as [E|E]; [auto|]. intros Q. destruct (L2 Q) as [C _]. contradiction.
    + intros -> W. destruct (Wm eq_refl) as [Q|Q]; [congruence|auto].
  - rewrite (OFF P). split; [intros Q; rewrite (L1 Q); exact P|]. split; [discriminate|]. split; [exact L3|]. split; [discriminate|exact L5].
  - rewrite (OFF P). repeat split; intros; try discriminate.
  - exact (conj L1 (conj L2 (conj L3 (conj L4 L5)))).
Qed.


Lemma along2 (I : mst -> list event -> Prop) (ok : list event -> event -> Prop) : (forall a ev a' p, moves a ev a' -> ok p ev -> I a p -> I a' (p ++ [ev])) ->
  forall t a a' p, mrun a t = Some a' -> Forall switched t -> (forall q ev r, t = q ++ ev :: r -> ok (p ++ q) ev) -> I a p -> I a' (p ++ t) /\
    (forall q ev r, t = q ++ ev :: r -> exists b b', I b (p ++ q) /\ moves b ev b').
Proof.
  intros H. induction t as [|x t IH]; intros a a' p R S O J.
  - cbn in R. injection R as <-. rewrite app_nil_r. split; [exact J|]. intros [|] ? ? X; discriminate X.
  - cbn in R. destruct (mstep a x) as [b|] eqn:E; [|discriminate R]. inversion S as [|? ? S1 S2]; subst. pose proof (moved _ _ _ E S1) as Mv.
    assert (O1 : ok p x) by (rewrite <- (app_nil_r p); apply (O [] x t); reflexivity).
    destruct (IH b a' (p ++ [x]) R S2) as [J' K]; [intros q ev r X; rewrite <- app_assoc; apply (O (x :: q) ev r); now rewrite X|exact (H _ _ _ _ Mv O1 J)|].
    rewrite <- app_assoc in J'. split; [exact J'|].
    intros [|y q] ev r X; injection X as -> X.
    + subst. rewrite app_nil_r. exists a, b. auto.
    + destruct (K q ev r X) as (c & c' & Jc & Mc). exists c, c'. rewrite <- app_assoc in Jc. auto.
Qed.
Lemma links_along c t a' T : mrun (opstart c) t = Some a' -> Forall switched t -> Forall not_zero t -> links (opstart c) T -> links a' (T ++ t) /\
    (forall q ev r, t = q ++ ev :: r -> exists b b', links b (T ++ q) /\ moves b ev b').
Proof.
  intros R S Z0 L. apply (along2 links (fun _ => not_zero) (fun a ev a' p Mv Z L => links_step a ev a' p Mv Z L) t _ _ T R S); [|exact L].
  intros q ev r E. rewrite Forall_forall in Z0. apply Z0. rewrite E. apply in_elt.
Qed.

(** Descriptors the operation has nothing to do with. *)
Definition apart (k : Z) (T0 : list event) (a : mst) (T : list event) : Prop := k <> cur a /\ polling k T = polling k T0 /\ In k (open_in sockets T).
Lemma open_in_snoc T ev : open_in sockets (T ++ [ev]) = open_after sockets (open_in sockets T) ev.
Proof. unfold open_in. rewrite fold_left_app. reflexivity. Qed.
Lemma still_open k T ev : In k (open_in sockets T) -> ~ In k (releases sockets ev) -> In k (open_in sockets (T ++ [ev])).
Proof.
  intros H N. rewrite open_in_snoc. unfold open_after. apply in_or_app. right. apply filter_In. split; [exact H|]. apply negb_true_iff.
  destruct (existsb (Z.eqb k) (releases sockets ev)) eqn:E; [|reflexivity]. apply existsb_exists in E as (y & Y & Q). apply Z.eqb_eq in Q. congruence.
Qed.
Lemma apart_step k T0 a ev a' T : moves a ev a' -> k > 0 -> (forall x, In x (acquires sockets ev) -> ~ In x (open_in sockets T)) -> apart k T0 a T -> apart k T0 a' (T ++ [ev]).
Proof.
  intros Mv K0 F (A1 & A2 & A3). unfold apart. rewrite polling_snoc.
  assert (NC : ~ In k (releases sockets ev)). 
  { destruct Mv as [n P|er P|b P R Wm|ev P Wr N _|P|ev Wr NX N _ _]; cbn; try tauto; [destruct ev; try discriminate Wr; cbn; tauto|destruct (cur a <? 0); cbn; intuition|].
    destruct ev; cbn; try tauto. contradiction (NX fd eq_refl). }
  pose proof (still_open k T ev A3 NC) as A3'.
  destruct Mv as [n P|er P|b P R Wm|ev P Wr N _|P|ev Wr NX N _ _]; cbn [cur mode_after]; rewrite ?N; auto.
  - assert (Z.of_N n <> k) by (intros <-; apply (F (Z.of_N n)); [now left|exact A3]). destruct (Z.eqb_spec (Z.of_N n) k); [contradiction|]. split; [congruence|auto].
  - split; [lia|auto].
  - destruct (Z.eqb_spec (cur a) k); [congruence|]. auto.
  - split; [lia|auto].
Qed.

Definition calm (w : world) : Prop := polling 0 (w_trace w) = false /\
  forall i c, get_client w i = Some c -> c_conn c = true -> 0 <= c_sock c /\ polling (c_sock c) (w_trace w) = false.
Lemma links_start w i c : calm w -> get_client w i = Some c -> links (opstart c) (w_trace w).
Proof.
  intros [C1 C2] G. unfold links, opstart. cbn. rewrite C1. repeat split; try discriminate; intros Q; destruct (C2 i c G Q); assumption.
Qed.
Lemma sends_calm c t a' T : mrun (opstart c) t = Some a' -> Forall switched t -> Forall not_zero t -> links (opstart c) T ->
  forall p fd d r q, t = p ++ EvSend fd d r :: q -> polling fd (T ++ p) = false.
Proof.
  intros R S Z0 L p fd d r q E. destruct (links_along c t a' T R S Z0 L) as [_ K].
  destruct (K p _ q E) as (b & b' & (L1 & _) & Mv). inversion Mv as [| | |ev P Wr N F|  |ev W' NX N U F]; subst; [|discriminate W'].
  destruct (F _ _ _ eq_refl) as [-> Rd]. rewrite (L1 Rd). exact P.
Qed.
Lemma step_pure o w x w' i c' : step o w = (x, w') -> (forall i m, o <> OSend i m) -> get_client w' i = Some c' -> c_conn c' = true ->
  exists j c, get_client w j = Some c /\ c_conn c = true /\ c_sock c = c_sock c'.
Proof.
  intros H N G C. pose proof (step_origin _ _ _ _ _ _ H G) as O.
  destruct O as [i c G0|i k p n c E F|i j c c' E G0 F|i j c E G0|i j c E G0|i j d c c' E G0 G1 _ _ F|i j d c E G0 G1 _ _|i j d c E G0 G1 _|i m c E _|i p c c' E G0 F|i n c E G0|i b c E G0|i n c E G0|i cr c E G0|i b c E G0|i b c E G0 _];
    try (exists i, c; auto; fail); try discriminate C; try (exists j, c; auto; fail).
  - unfold client_new, obind in F. destruct (check_server_name p); inversion F; subst; discriminate C.
  - unfold client_copy in F. destruct (c_server c); inversion F; subst; discriminate C.
  - unfold client_assign in F. destruct (c_server c); inversion F; subst; discriminate C.
  - contradiction (N i m E).
  - unfold client_setServerName, obind in F. destruct (check_server_name p); inversion F; subst. exists i, c. auto.
Qed.
Lemma calm_step o w x w' t : step o w = (x, w') -> w_trace w' = w_trace w ++ t -> Forall switched t -> Forall not_zero t -> fresh sockets (w_trace w') ->
  held_apart sockets w -> held_open sockets w -> calm w ->
  (forall p fd d r q, t = p ++ EvSend fd d r :: q -> polling fd (w_trace w ++ p) = false) /\ (continues x = true -> calm w').
Proof.
  intros H T S Z0 Fr HA HO C.
  assert (D : accepted o x w w' t \/ (w' = w /\ t = [])).
  { destruct (get_client w (match o with OSend i _ | ODestroy i => i | _ => 0%nat end)) as [c|] eqn:G; [left; apply op_accepted; auto; congruence|].
    destruct o; try (left; left; split; [|split; discriminate];
      assert (E : w_trace w' = w_trace w) by (destruct (step_effect _ _ _ _ H) as [[E _]|[(? & ? & ? & X & _)|(? & ? & X & _)]]; [exact E|discriminate X|discriminate X]);
      rewrite E in T; rewrite <- (app_nil_r (w_trace w)) in T at 1; apply app_inv_head in T; now symmetry); right; eapply missing; eauto. }
  destruct D as [[(-> & N1 & N2)|(i & c & a' & G & R & D1 & D2 & D3)]|[-> ->]].
  - split; [intros [|] ? ? ? ? X; discriminate X|]. intros _. rewrite app_nil_r in T. destruct C as [C1 C2]. split; [now rewrite T|].
    intros i c' G Q. rewrite T. destruct (step_pure _ _ _ _ _ _ H N1 G Q) as (j & c & Gj & Qj & Ej). rewrite <- Ej. eapply C2; eauto.
  - pose proof (links_start w i c C G) as L. split; [eapply sends_calm; eauto|]. intros K.
    destruct (links_along _ _ _ _ R S Z0 L) as [(L1 & L2 & L3 & L4 & L5) _]. rewrite <- T in L1, L2.
    assert (OFF : polling 0 (w_trace w') = false).
    { destruct (polling 0 (w_trace w')) eqn:Q; [|reflexivity]. destruct (L2 eq_refl) as [Q1 Q2]. specialize (L1 Q2). rewrite Q1, Q in L1.
      destruct (wrote a') eqn:W; [specialize (D1 K eq_refl); congruence|]. contradiction (L4 (eq_sym L1) eq_refl). }
    split; [exact OFF|]. intros j cj Gj Cj. destruct (Nat.eq_dec j i) as [->|Ne].
    + destruct (D2 K cj Gj Cj) as (E1 & E2 & E3). rewrite <- E1, (L1 E3). auto.
    + rewrite (D3 j Ne) in Gj. destruct C as [C1 C2]. destruct (C2 j cj Gj Cj) as [P1 P2]. split; [exact P1|].
      destruct (Z.eq_dec (c_sock cj) 0) as [E|E]; [now rewrite E|]. assert (Kp : c_sock cj > 0) by lia.
      assert (Rf : In (c_sock cj) (refers sockets cj)) by (cbn; destruct (Z.leb_spec (c_sock cj) 0); [lia|now left]).
      assert (A0 : apart (c_sock cj) (w_trace w) (opstart c) (w_trace w)).
      { split; [|split; [reflexivity|eapply HO; eauto]]. cbn [cur opstart]. intros Q. eapply (HA j i cj c); eauto. cbn. rewrite <- Q. destruct (Z.leb_spec (c_sock cj) 0); [lia|now left]. }
      assert (Fr' : forall q ev r, t = q ++ ev :: r -> forall y, In y (acquires sockets ev) -> ~ In y (open_in sockets (w_trace w ++ q))).
      { intros q ev r Et y Y. apply (Fr (w_trace w ++ q) ev r y); [rewrite T, Et; now rewrite <- app_assoc|exact Y]. }
      pose proof (along2 (apart (c_sock cj) (w_trace w)) (fun T ev => forall x, In x (acquires sockets ev) -> ~ In x (open_in sockets T))
        (fun a ev a' p Mv F A => apart_step _ _ a ev a' p Mv Kp F A) t _ _ _ R S Fr' A0) as [(_ & A2 & _) _]. rewrite <- T in A2. now rewrite A2.
  - split; [intros [|] ? ? ? ? X; discriminate X|auto].
Qed.
Lemma own_step o w x w' : step o w = (x, w') -> fresh sockets (w_trace w') -> G sockets w -> G sockets w'.
Proof.
  intros H F g. assert (E : snd (run [o] w) = w') by (cbn [run]; rewrite H; now destruct (continues x)).
  rewrite <- E in F |- *. clear x w' H E. apply G_run; [exact sock_steps| | | | | | | | | |exact F|exact g]; clear; own_tac.
Qed.
Lemma calm_run ops : forall w, G sockets w -> calm w -> forall t, w_trace (snd (run ops w)) = w_trace w ++ t -> Forall switched t -> Forall not_zero t -> fresh sockets (w_trace w ++ t) ->
  forall p fd d r q, t = p ++ EvSend fd d r :: q -> polling fd (w_trace w ++ p) = false.
Proof.
  induction ops as [|o ops IH]; intros w g C t T S Z0 F p fd d r q E.
  - cbn in T. rewrite <- (app_nil_r (w_trace w)) in T at 1. apply app_inv_head in T. subst t. destruct p; discriminate E.
  - cbn [run] in T. destruct (step o w) as [x w1] eqn:H. destruct (step_trace _ _ _ _ H) as [t1 T1].
    destruct (G_facts sockets w g) as (_ & HA & HO).
    assert (X : exists t2, t = t1 ++ t2 /\ ((continues x = true /\ w_trace (snd (run ops w1)) = w_trace w1 ++ t2) \/ t2 = [])).
    { destruct (continues x).
      - destruct (run_trace ops w1) as [t2 T2]. destruct (run ops w1) as [xs w2]. cbn [snd] in *. exists t2. rewrite T2, T1, <- app_assoc in T. apply app_inv_head in T. auto.
      - cbn [snd] in T. exists []. rewrite T1 in T. apply app_inv_head in T. rewrite app_nil_r. auto. }
    destruct X as (t2 & Et & X). rewrite Et in S, Z0, F, E. clear Et. apply Forall_app in S as [S1 S2]. apply Forall_app in Z0 as [Z1 Z2].
    assert (F1 : fresh sockets (w_trace w1)) by (rewrite app_assoc, <- T1 in F; eapply fresh_prefix; exact F).
    destruct (calm_step o w x w1 t1 H T1 S1 Z1 F1 HA HO C) as [K1 K2].
    destruct (Nat.lt_ge_cases (length p) (length t1)) as [Lt|Ge].
    + assert (exists q1, t1 = p ++ EvSend fd d r :: q1) as (q1 & Q).
      { exists (skipn (S (length p)) t1). assert (Et : firstn (length t1) (t1 ++ t2) = t1) by (rewrite firstn_app, Nat.sub_diag, firstn_all; cbn; apply app_nil_r).
        rewrite E in Et. rewrite firstn_app in Et. rewrite firstn_all2 in Et by lia. destruct (length t1 - length p)%nat as [|k] eqn:Lk; [lia|]. cbn [firstn] in Et.
        rewrite <- Et at 1. rewrite <- Et. rewrite skipn_app, skipn_all2 by lia. replace (Datatypes.S (length p) - length p)%nat with 1%nat by lia. reflexivity. }
      eapply K1, Q.
    + assert (exists p2, p = t1 ++ p2 /\ t2 = p2 ++ EvSend fd d r :: q) as (p2 & -> & E2).
      { exists (skipn (length t1) p). assert (Ep : firstn (length t1) p = t1).
        { assert (Y : firstn (length t1) (t1 ++ t2) = firstn (length t1) (p ++ EvSend fd d r :: q)) by now rewrite E. rewrite !firstn_app, Nat.sub_diag, firstn_all in Y.
          replace (length t1 - length p)%nat with 0%nat in Y by lia. cbn [firstn] in Y. now rewrite !app_nil_r in Y. }
        split; [rewrite <- Ep at 1; symmetry; apply firstn_skipn|]. apply (app_inv_head t1). rewrite E, app_assoc. f_equal. rewrite <- Ep at 1. symmetry. apply firstn_skipn. }
      destruct X as [[Cx T2]|X]; [|subst t2; destruct p2; discriminate E2]. rewrite app_assoc, <- T1.
      eapply (IH w1 (own_step _ _ _ _ H F1 g) (K2 Cx) t2 T2 S2 Z2); [rewrite T1, <- app_assoc; exact F|exact E2].
Qed.
Lemma program_writes e ops p fd d r q : let t := w_trace (snd (run ops (initial_world e))) in Forall switched t -> Forall not_zero t -> fresh sockets t ->
  t = p ++ EvSend fd d r :: q -> polling fd p = false.
Proof.
  intros t S Z0 F E. apply (calm_run ops (initial_world e)) with (t := t) (d := d) (r := r) (q := q); auto; [apply G_initial|].
  split; [reflexivity|]. intros [|i] c Gc; discriminate Gc.
Qed.
