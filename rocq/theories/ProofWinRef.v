(** References to WinSock: who holds one, and when. *)

From Coq Require Import Ascii String List NArith ZArith Bool Lia.
From Verif Require Import Base ModelUtil ModelBase64 ModelAddress ModelAttachment
  ModelErrors ModelReply ModelMessage ModelState ModelClient ModelWorld ModelWin SpecWin ProofWin2.
Import ListNotations.
Open Scope Z_scope.

(** ** Functions shared with the POSIX build *)

Definition okev (fd : Z) (b : option bio) (ev : event) : Prop :=
  match ev with
  | EvSocket _ | EvConnect _ _ _ => False
  | EvSend f _ _ | EvRecv f _ => f = fd \/ f = 0
  | EvPuts _ _ _ | EvRead _ _ => b <> None
  | _ => True
  end.
(** [any]: may the function set the TLS channel? *)
Definition same_client (any : bool) (c c' : client) : Prop :=
  c_kind c' = c_kind c /\ c_conn c' = c_conn c /\ (c_sock c' = c_sock c \/ c_sock c' = 0) /\
  (any = true \/ c_bio c' = c_bio c \/ c_bio c' = None).
Definition tame (any : bool) {A} (m : M A) : Prop := forall s, exists l,
  s_t (snd (m s)) = s_t s ++ l /\ same_client any (s_c s) (s_c (snd (m s))) /\
  Forall (okev (c_sock (s_c s)) (if any then None else c_bio (s_c s))) l.

Lemma same_refl any c : same_client any c c.
Proof. unfold same_client. tauto. Qed.
Lemma tame_quiet any {A} (m : M A) :
  (forall s, s_t (snd (m s)) = s_t s /\ same_client any (s_c s) (s_c (snd (m s)))) -> tame any m.
Proof. intros H s. destruct (H s) as [E S]. exists []. rewrite app_nil_r. auto. Qed.
Lemma tame_ret any {A} (a : A) : tame any (ret a).
Proof. apply tame_quiet. intros s. split; [reflexivity|apply same_refl]. Qed.
Lemma tame_getc any : tame any getc.
Proof. apply tame_quiet. intros s. split; [reflexivity|apply same_refl]. Qed.
Lemma tame_gete any : tame any gete.
Proof. apply tame_quiet. intros s. split; [reflexivity|apply same_refl]. Qed.
Lemma tame_lift any {A} (o : outcome A) : tame any (lift o).
Proof. apply tame_quiet. intros s. split; [reflexivity|apply same_refl]. Qed.
Lemma tame_ub any {A} u : tame any (@fail_ub A u).
Proof. apply tame_quiet. intros s. split; [reflexivity|apply same_refl]. Qed.
Lemma tame_blocked any {A} : tame any (@blocked A).
Proof. apply tame_quiet. intros s. split; [reflexivity|apply same_refl]. Qed.
Lemma tame_killed any {A} : tame any (@killed A).
Proof. apply tame_quiet. intros s. split; [reflexivity|apply same_refl]. Qed.
Lemma tame_diverge any {A} : tame any (@diverge A).
Proof. apply tame_quiet. intros s. split; [reflexivity|apply same_refl]. Qed.
Lemma tame_upde any g : tame any (upde g).
Proof. apply tame_quiet. intros s. split; [reflexivity|apply same_refl]. Qed.
Lemma tame_updc any g : (forall c, same_client any c (g c)) -> tame any (updc g).
Proof. intros H. apply tame_quiet. intros s. split; [reflexivity|apply H]. Qed.
Lemma tame_emit any ev : (forall fd b, okev fd b ev) -> tame any (emit ev).
Proof. intros H s. exists [ev]. split; [reflexivity|]. split; [apply same_refl|]. constructor; [apply H|constructor]. Qed.
Lemma tame_bind any {A C} (m : M A) (k : A -> M C) : tame any m -> (forall a, tame any (k a)) -> tame any (bind m k).
Proof.
  intros H K s. destruct (H s) as (l & E & S & F). unfold bind. destruct (m s) as [[a| | | | |] s1]; cbn [snd] in *; try (exists l; auto; fail).
  destruct (K a s1) as (l2 & E2 & S2 & F2). exists (l ++ l2). split; [now rewrite E2, E, app_assoc|].
  destruct S as (S1 & S3 & S4 & S5), S2 as (T1 & T3 & T4 & T5). split.
  - unfold same_client. rewrite T1, T3, S1, S3. repeat split.
    + destruct T4 as [->| ->]; auto.
    + destruct any; [auto|]. destruct T5 as [T5|[T5|T5]]; [discriminate| |auto]. rewrite T5. destruct S5 as [|[|]]; auto.
  - apply Forall_app. split; [exact F|]. eapply Forall_impl; [|exact F2]. intros ev. destruct ev; cbn; auto.
    + destruct S4 as [->| ->]; tauto.
    + destruct S4 as [->| ->]; tauto.
    + destruct any; [auto|]. destruct S5 as [S5|[->| ->]]; [discriminate|auto|congruence].
    + destruct any; [auto|]. destruct S5 as [S5|[->| ->]]; [discriminate|auto|congruence].
Qed.

Ltac same := intros ?; unfold same_client; cbn; tauto.
Lemma tame_addLog any i p : tame any (addLog i p).
Proof.
  unfold addLog. apply tame_bind; [apply tame_getc|]. intros c. destruct (c_log c) as [lg|]; [|apply tame_ub].
  cbv zeta. destruct (_ && _); [apply tame_lift|]. destruct (_ && _)%N; [apply tame_updc; same|apply tame_ub].
Qed.
Lemma tame_logc any i : tame any (logc i). Proof. apply tame_addLog. Qed.
Lemma tame_logs any i : tame any (logs i). Proof. apply tame_addLog. Qed.
Lemma tame_errno any z : tame any (setLastSocketErrNo z). Proof. apply tame_updc. same. Qed.
Lemma tame_resp any z : tame any (setLastServerResponse z). Proof. apply tame_updc. same. Qed.
Ltac tam := repeat match goal with
  | |- tame _ (bind _ _) => apply tame_bind; [|intros ?]
  | |- tame _ (ret _) => apply tame_ret
  | |- tame _ getc => apply tame_getc
  | |- tame _ gete => apply tame_gete
  | |- tame _ (lift _) => apply tame_lift
  | |- tame _ (fail_ub _) => apply tame_ub
  | |- tame _ blocked => apply tame_blocked
  | |- tame _ killed => apply tame_killed
  | |- tame _ diverge => apply tame_diverge
  | |- tame _ (logc _) => apply tame_logc
  | |- tame _ (logs _) => apply tame_logs
  | |- tame _ (addLog _ _) => apply tame_addLog
  | |- tame _ (setLastSocketErrNo _) => apply tame_errno
  | |- tame _ (setLastServerResponse _) => apply tame_resp
  | |- tame _ (upde _) => apply tame_upde
  | |- tame _ (updc _) => apply tame_updc; same
  | |- tame _ (emit _) => apply tame_emit; intros; exact Logic.I
  | |- tame _ (match ?x with _ => _ end) => destruct x
  | |- tame _ (let _ := _ in _) => cbv zeta
  end.
Lemma tame_log_errno any z : tame any (log_errno z). Proof. unfold log_errno. tam. Qed.

(** A computation that looks at the client first. *)
Lemma tame_at any {A} (k : client -> M A) :
  (forall c, forall s, s_c s = c -> exists l, s_t (snd (k c s)) = s_t s ++ l /\ same_client any c (s_c (snd (k c s))) /\
     Forall (okev (c_sock c) (if any then None else c_bio c)) l) ->
  tame any (bind getc k).
Proof. intros H s. exact (H (s_c s) s eq_refl). Qed.
Lemma tame_send d : tame false (sys_send d).
Proof.
  apply tame_at. intros c s E. unfold bind, gete, upde, emit, ret. destruct (e_send (s_e s)) as [|r l]; cbn;
    eexists; (split; [reflexivity|]); rewrite E; (split; [apply same_refl|]); repeat constructor.
Qed.
Lemma tame_puts b d s : c_bio (s_c s) = Some b -> exists l,
  s_t (snd (sys_puts b d s)) = s_t s ++ l /\ same_client false (s_c s) (s_c (snd (sys_puts b d s))) /\
  Forall (okev (c_sock (s_c s)) (c_bio (s_c s))) l.
Proof.
  intros E. unfold sys_puts, bind, gete, upde, emit, ret. destruct (e_bputs (s_e s)) as [|r l]; cbn;
    eexists; (split; [reflexivity|]); (split; [apply same_refl|]); constructor; cbn; try constructor; congruence.
Qed.
Lemma tame_close any : tame any close_socket.
Proof.
  apply tame_at. intros c s E. destruct (c_sock c =? 0); cbn; [exists []|eexists];
    (split; [try reflexivity; now rewrite app_nil_r|]); rewrite E; (split; [unfold same_client; cbn; tauto|]); repeat constructor.
Qed.
Lemma tame_free any : tame any free_tls.
Proof. unfold free_tls. tam. Qed.

Lemma wait_ok fd b mk n : (forall r, okev fd b (mk r)) -> forall rs w, Forall (okev fd b) (snd (fst (wait_loop mk n w rs))).
Proof.
  intros H. induction rs as [|r rs IH]; intros w; cbn; [constructor|].
  destruct (rbytes r).
  - destruct (w <? n)%N.
    + specialize (IH (w + 1)%N). destruct (wait_loop mk n (w + 1)%N rs) as [[o1 e1] r1]. cbn in *.
      constructor; [apply H|]. constructor; [exact Logic.I|exact IH].
    + cbn. constructor; [apply H|constructor].
  - cbn. constructor; [apply H|constructor].
Qed.
Lemma raw_ok fd b n rs : forall w g a, Forall (okev fd b) (snd (fst (raw_loop fd n w g a rs))).
Proof.
  induction rs as [|r rs IH]; intros w g a; cbn [raw_loop]; [constructor|].
  assert (X : okev fd b (EvRecv fd r)) by (cbn; auto).
  destruct (rbytes r) as [|x d].
  - destruct (is_err r && g); [constructor; [exact X|constructor]|].
    destruct (w + 1 <? n)%N; [|repeat constructor; auto].
    specialize (IH (w + 1)%N g a). destruct (raw_loop fd n (w + 1)%N g a rs) as [[o1 e1] r1]. cbn in *. repeat constructor; auto.
  - destruct (_ <=? _)%nat; [repeat constructor; auto|].
    destruct (w <? n)%N; [|repeat constructor; auto].
    specialize (IH w true (a ++ cstr (x :: d))). destruct (raw_loop fd n w true (a ++ cstr (x :: d)) rs) as [[o1 e1] r1]. cbn in *. constructor; auto.
Qed.
Lemma tame_greeting any r : tame any (greeting_result r).
Proof. unfold greeting_result. tam. Qed.
(** Reading in one go. *)
Definition take_reads (rest : list recv_res) (put : list recv_res -> env -> env) (evs : list event) {A} (o : outcome A) : M A :=
  upde (put rest);; emits evs;; lift o.
Lemma take_reads_run rest put evs {A} (o : outcome A) s : take_reads rest put evs o s = (o, mkSt (s_c s) (put rest (s_e s)) (s_t s ++ evs)).
Proof. reflexivity. Qed.
Lemma tame_then any {A C} (m : M A) (k : A -> M C) s l : (forall a, tame any (k a)) ->
  s_t (snd (m s)) = s_t s ++ l -> s_c (snd (m s)) = s_c s -> Forall (okev (c_sock (s_c s)) (if any then None else c_bio (s_c s))) l ->
  exists l, s_t (snd (bind m k s)) = s_t s ++ l /\ same_client any (s_c s) (s_c (snd (bind m k s))) /\
  Forall (okev (c_sock (s_c s)) (if any then None else c_bio (s_c s))) l.
Proof.
  intros K E S F. unfold bind. destruct (m s) as [[a| | | | |] s1]; cbn [snd] in *; try (exists l; rewrite S; auto using same_refl; fail).
  destruct (K a s1) as (l2 & E2 & S2 & F2). rewrite S in *. exists (l ++ l2). split; [now rewrite E2, E, app_assoc|]. split; [exact S2|].
  apply Forall_app. auto.
Qed.
Lemma tame_greetings : tame false checkServerGreetings.
Proof.
  intros s. set (w := wait_loop (EvRecv (c_sock (s_c s))) (c_timeout (s_c s)) 0 (e_recv (s_e s))).
  assert (F : Forall (okev (c_sock (s_c s)) (c_bio (s_c s))) (snd (fst w))) by (apply wait_ok; cbn; auto).
  assert (E : checkServerGreetings s = bind (take_reads (snd w) set_recv (snd (fst w)) (fst (fst w))) greeting_result s).
  { unfold checkServerGreetings, bind, getc, gete, take_reads, upde, emits, lift. cbn. fold w. destruct w as [[o evs] rest]. reflexivity. }
  rewrite E. eapply tame_then; [intros; apply tame_greeting|reflexivity|reflexivity|exact F].
Qed.
Lemma wait_bio_run s : exists l, s_t (snd (wait_bio s)) = s_t s ++ l /\ s_c (snd (wait_bio s)) = s_c s /\
  Forall (okev (c_sock (s_c s)) (c_bio (s_c s))) l.
Proof.
  destruct (c_bio (s_c s)) as [b|] eqn:B.
  - set (w := wait_loop (EvRead (bio_id b)) (c_timeout (s_c s)) 0 (e_bread (s_e s))).
    assert (E : wait_bio s = take_reads (snd w) set_bread (snd (fst w)) (fst (fst w)) s).
    { unfold wait_bio, bind, getc, gete, take_reads, upde, emits, lift. cbn. rewrite B. cbn. fold w. destruct w as [[o evs] rest]. reflexivity. }
    rewrite E. exists (snd (fst w)). split; [reflexivity|]. split; [reflexivity|]. apply wait_ok. cbn. congruence.
  - unfold wait_bio, wait_null_bio, bind, getc, ret, emit. cbn. rewrite B. cbn. destruct (0 <? _)%N; cbn; [|exists []; rewrite app_nil_r; auto].
    eexists. split; [reflexivity|]. split; [reflexivity|]. repeat constructor.
Qed.
Lemma tame_greetingsTLS : tame false checkServerGreetingsTLS.
Proof.
  intros s. destruct (wait_bio_run s) as (l & E & S & F). unfold checkServerGreetingsTLS.
  eapply tame_then; [intros; apply tame_greeting|exact E|exact S|exact F].
Qed.
Lemma tame_replyTLS : tame false getServerReplyTLS.
Proof.
  intros s. destruct (wait_bio_run s) as (l & E & S & F). unfold getServerReplyTLS.
  eapply tame_then; [intros; tam|exact E|exact S|exact F].
Qed.
Lemma tame_raw c : forall s, s_c s = c -> exists l, s_t (snd ((e <- gete;;
             let '(o, evs, rest) := raw_loop (c_sock c) (c_timeout c) 0 false [] (e_recv e) in
             upde (set_recv rest);;
             emits evs;;
             lift o) s)) = s_t s ++ l /\ s_c (snd ((e <- gete;;
             let '(o, evs, rest) := raw_loop (c_sock c) (c_timeout c) 0 false [] (e_recv e) in
             upde (set_recv rest);;
             emits evs;;
             lift o) s)) = c /\ Forall (okev (c_sock c) (c_bio c)) l.
Proof.
  intros s E. unfold bind, gete. cbn. pose proof (raw_ok (c_sock c) (c_bio c) (c_timeout c) (e_recv (s_e s)) 0%N false []) as F.
  destruct (raw_loop _ _ _ _ _ _) as [[o evs] rest]. exists evs. split; [reflexivity|]. split; [exact E|exact F].
Qed.

(** ** The invariant *)

Definition mine (v : vst) : Prop :=
  (c_sock (v_c v) = 0 \/ v_on v = true) /\ (c_bio (v_c v) = None \/ v_on v = true) /\
  (c_kind (v_c v) = KPlain -> c_bio (v_c v) = None).
Definition linked (v : vst) : Prop := v_on v = true -> c_conn (v_c v) = true.

(** The number of references held along the events.  [strict]: data need one. *)
Fixpoint cnt (strict : bool) (n : nat) (t : list wevent) : option nat :=
  match t with
  | [] => Some n
  | ev :: r =>
      match ev with
      | WStartup z => cnt strict (if z =? 0 then S n else n) r
      | WCleanup z => match n with O => None | S m => cnt strict (if z =? 0 then m else n) r end
      | WSock e => if transfers e && strict && (n =? 0)%nat then None else cnt strict n r
      | _ => cnt strict n r
      end
  end.
Lemma cnt_app strict t1 : forall n t2 n1, cnt strict n t1 = Some n1 -> cnt strict n (t1 ++ t2) = cnt strict n1 t2.
Proof.
  induction t1 as [|ev t1 IH]; intros n t2 n1 E; cbn in *; [now injection E as <-|].
  destruct ev; auto.
  - destruct (_ && _); [discriminate|auto].
  - destruct n; [discriminate|auto].
Qed.
Definition b2n (b : bool) : nat := if b then 1 else 0.
Definition freed (ev : wevent) : Prop := match ev with WCleanup r => r = 0 | _ => True end.
Definition counted (strict on on' : bool) (tw : list wevent) : Prop := forall n k, (b2n on + k <= n)%nat ->
  exists n', cnt strict n tw = Some n' /\ (b2n on' + k <= n')%nat /\ (Forall freed tw -> n' + b2n on = n + b2n on')%nat.
Lemma counted_app strict a b c t1 t2 : counted strict a b t1 -> counted strict b c t2 -> counted strict a c (t1 ++ t2).
Proof.
  intros H1 H2 n k L. destruct (H1 n k L) as (n1 & E1 & L1 & X1). destruct (H2 n1 k L1) as (n2 & E2 & L2 & X2).
  exists n2. split; [now rewrite (cnt_app _ _ _ _ _ E1)|]. split; [exact L2|]. intros F. apply Forall_app in F as [F1 F2].
  specialize (X1 F1). specialize (X2 F2). lia.
Qed.
Lemma counted_nil strict b : counted strict b b [].
Proof. intros n k L. exists n. repeat split; auto. Qed.
Definition passive (ev : wevent) : Prop := starts ev = false.

(** [d]: the function ended normally. *)
Definition kept (d : bool) (v v' : vst) : Prop := (d = true -> linked v -> linked v') /\ c_kind (v_c v') = c_kind (v_c v).
Definition R (strict d : bool) (v v' : vst) : Prop := (strict = true -> mine v) ->
  (strict = true -> mine v') /\ kept d v v' /\
  exists tw, v_t v' = v_t v ++ tw /\ Forall passive tw /\ counted strict (v_on v) (v_on v') tw.
Lemma R_refl strict d v : R strict d v v.
Proof. intros M. split; [exact M|]. split; [split; auto|]. exists []. rewrite app_nil_r. auto using counted_nil. Qed.
Lemma R_trans strict d v1 v2 v3 : R strict true v1 v2 -> R strict d v2 v3 -> R strict d v1 v3.
Proof.
  intros H1 H2 M. destruct (H1 M) as (M1 & (L1 & K1) & tw1 & E1 & P1 & A1). destruct (H2 M1) as (M2 & (L2 & K2) & tw2 & E2 & P2 & A2).
  split; [exact M2|]. split; [split; [auto|congruence]|]. exists (tw1 ++ tw2). split; [now rewrite E2, E1, app_assoc|].
  split; [now apply Forall_app|]. eapply counted_app; eauto.
Qed.
Lemma R_weak strict d v v' : R strict true v v' -> R strict d v v'.
Proof. intros H M. destruct (H M) as (M1 & (L1 & K1) & X). split; [exact M1|]. split; [split; [intros _; now apply L1|exact K1]|exact X]. Qed.
Lemma R_trans0 strict v1 v2 v3 : R strict false v1 v2 -> R strict false v2 v3 -> R strict false v1 v3.
Proof.
  intros H1 H2 M. destruct (H1 M) as (M1 & (L1 & K1) & tw1 & E1 & P1 & A1). destruct (H2 M1) as (M2 & (L2 & K2) & tw2 & E2 & P2 & A2).
  split; [exact M2|]. split; [split; [discriminate|congruence]|]. exists (tw1 ++ tw2). split; [now rewrite E2, E1, app_assoc|].
  split; [now apply Forall_app|]. eapply counted_app; eauto.
Qed.

Definition is_done {A} (o : outcome A) : bool := match o with Done _ => true | _ => false end.
Definition relW strict {A} (m : W A) : Prop := forall v, R strict (is_done (fst (m v))) v (snd (m v)).
Lemma rel_bind strict {A C} (m : W A) (k : A -> W C) : relW strict m -> (forall a, relW strict (k a)) -> relW strict (wbind m k).
Proof.
  intros H K v. specialize (H v). unfold wbind. destruct (m v) as [[a| | | | |] v1]; cbn in *; try exact H.
  eapply R_trans; [exact H|apply K].
Qed.
Lemma rel_ret strict {A} (a : A) : relW strict (wret a).
Proof. intros v. apply R_refl. Qed.

Lemma cnt_base strict on fd b l : (strict = true -> (fd = 0 \/ on = true) /\ (b = None \/ on = true)) ->
  Forall (okev fd b) l -> Forall passive (map WSock l) /\ counted strict on on (map WSock l).
Proof.
  intros J F. split.
  - apply Forall_map. eapply Forall_impl; [|exact F]. intros ev O. destruct ev; cbn in O; try reflexivity; contradiction.
  - intros n k L. exists n. split; [|repeat split; auto].
    induction F as [|ev l O F IH]; [reflexivity|]. cbn [map cnt].
    destruct (transfers ev && strict && (n =? 0)%nat) eqn:T; [|exact IH].
    exfalso. apply andb_true_iff in T as [T N]. apply andb_true_iff in T as [T Q].
    destruct (J Q) as [J1 J2]. apply Nat.eqb_eq in N. subst n. assert (on = false) by (destruct on; [cbn in L; lia|reflexivity]).
    destruct ev; cbn in *; try discriminate.
    + apply negb_true_iff, Z.eqb_neq in T. destruct O as [->|]; [|contradiction]. destruct J1; congruence.
    + apply negb_true_iff, Z.eqb_neq in T. destruct O as [->|]; [|contradiction]. destruct J1; congruence.
    + destruct J2; congruence.
    + destruct J2; congruence.
Qed.
Lemma R_base strict {A} (m : M A) v l :
  s_t (snd (m (mkSt (v_c v) (v_e v) []))) = l -> same_client false (v_c v) (s_c (snd (m (mkSt (v_c v) (v_e v) [])))) ->
  Forall (okev (c_sock (v_c v)) (c_bio (v_c v))) l -> R strict true v (snd (base m v)).
Proof.
  intros E S F M. unfold base. destruct (m (mkSt (v_c v) (v_e v) [])) as [o s]. cbn [snd] in *. subst l.
  destruct S as (S1 & S2 & S3 & S4). split; [|split].
  - intros Q. destruct (M Q) as (M1 & M2 & M3). unfold mine. cbn. rewrite S1. split; [destruct S3 as [->|]; auto|].
    split; [destruct S4 as [?|[->|]]; auto; discriminate|]. intros P. destruct S4 as [?|[->|]]; auto; discriminate.
  - split; [intros _; unfold linked; cbn; now rewrite S2|exact S1].
  - exists (map WSock (s_t s)). cbn. split; [reflexivity|]. eapply cnt_base; [|exact F]. intros Q. destruct (M Q) as (M1 & M2 & _). auto.
Qed.
Lemma rel_base strict {A} (m : M A) : tame false m -> relW strict (base m).
Proof.
  intros H v. apply R_weak. destruct (H (mkSt (v_c v) (v_e v) [])) as (l & E & S & F). eapply R_base; eauto.
Qed.
Lemma rel_put strict ev : starts ev = false -> (forall r, ev <> WCleanup r) -> (forall e, ev <> WSock e) -> relW strict (wput ev).
Proof.
  intros H N N2 v M. split; [exact M|]. split; [split; auto|]. exists [ev]. cbn. split; [reflexivity|]. split; [repeat constructor; exact H|].
  intros n k L. exists n. split; [|repeat split; auto].
  destruct ev; try reflexivity; try discriminate H; [now destruct (N2 ev)|now destruct (N r)].
Qed.
Lemma rel_next strict {T} get set (d : T) : relW strict (next get set d).
Proof. intros v. unfold next. destruct (get (v_w v)); [apply R_refl|]. intros M. split; [exact M|]. split; [split; auto|]. exists []. cbn. rewrite app_nil_r. auto using counted_nil. Qed.

Ltac rel := repeat match goal with
  | |- relW _ (wret _) => apply rel_ret
  | |- relW _ (next _ _ _) => apply rel_next
  | |- relW _ (wput _) => apply rel_put; [reflexivity|discriminate|discriminate]
  | |- relW _ (base (sys_send _)) => apply rel_base, tame_send
  | |- relW _ (base (log_errno _)) => apply rel_base, tame_log_errno
  | |- relW _ (base _) => apply rel_base; tam; fail
  | |- relW _ (wbind _ _) => apply rel_bind; [|intros ?]
  | |- relW _ (match ?x with _ => _ end) => destruct x
  end.

(** ** Every function after the connection *)

Section Walk.
Variable strict : bool.

Lemma rel_mode b : relW strict (setSocketMode b).
Proof. unfold setSocketMode. rel. Qed.
(** Reading the client first. *)
Lemma rel_getc {C} (k : client -> W C) : (forall v, R strict (is_done (fst (k (v_c v) v))) v (snd (k (v_c v) v))) -> relW strict (wbind (base getc) k).
Proof. intros H v. unfold wbind, base, getc. cbn. rewrite app_nil_r. specialize (H v). destruct v; exact H. Qed.
Lemma R_bind {A C} (m : W A) (k : A -> W C) v : R strict true v (snd (m v)) -> (forall a, relW strict (k a)) ->
  R strict (is_done (fst (wbind m k v))) v (snd (wbind m k v)).
Proof.
  intros H K. unfold wbind. destruct (m v) as [[a| | | | |] v1]; cbn in *; try (apply R_weak, H).
  eapply R_trans; [exact H|apply K].
Qed.
Lemma rel_raw_reply : relW strict getRawCommandReplyW.
Proof.
  unfold getRawCommandReplyW. apply rel_bind; [apply rel_mode|]. intros _. apply rel_getc. intros v.
  apply R_bind.
  - destruct (tame_raw (v_c v) (mkSt (v_c v) (v_e v) []) eq_refl) as (l & E & S & F). eapply R_base; [reflexivity| |].
    + cbv beta in *. rewrite S. apply same_refl.
    + rewrite E. exact F.
  - intros [[? ?] ?]. apply rel_bind; [apply rel_mode|]. intros _. rel.
Qed.
Lemma rel_replyTLS : relW strict (base getServerReplyTLS).
Proof. apply rel_base, tame_replyTLS. Qed.
Lemma rel_reply : relW strict getServerReplyW.
Proof. unfold getServerReplyW. apply rel_bind; [rel|]. intros c. destruct (c_kind c); [apply rel_raw_reply|apply rel_replyTLS..]. Qed.

Lemma rel_raw2 cw cmd err : relW strict cw -> relW strict (sendRaw2W cw cmd err).
Proof. intros H. unfold sendRaw2W. rel; exact H. Qed.
Lemma R_puts b d v : c_bio (v_c v) = Some b -> R strict true v (snd (base (sys_puts b d) v)).
Proof.
  intros E. destruct (tame_puts b d (mkSt (v_c v) (v_e v) []) E) as (l & E1 & S & F). eapply R_base; [reflexivity|exact S|].
  rewrite E1. exact F.
Qed.
Lemma rel_sendTLS cw cmd err : relW strict cw -> relW strict (sendCommandTLSW cw cmd err).
Proof.
  intros H. unfold sendCommandTLSW. apply rel_getc. intros v. destruct (c_bio (v_c v)) as [b|] eqn:B.
  - apply R_bind; [now apply R_puts|]. intros r. rel; exact H.
  - match goal with |- R _ (is_done (fst (?m v))) _ _ => assert (X : relW strict m) by (rel; exact H) end. apply X.
Qed.
Lemma rel_sendptr cw cmd err : relW strict cw -> relW strict (sendCommandPtrW cw cmd err).
Proof.
  intros H. unfold sendCommandPtrW. apply rel_bind; [rel|]. intros c. destruct (c_rawptr c); [now apply rel_raw2|].
  destruct (c_kind c); [now apply rel_raw2|now apply rel_sendTLS..].
Qed.
Lemma rel_quit cw : relW strict cw -> relW strict (sendQuitW cw).
Proof. intros H. unfold sendQuitW. apply rel_bind; [rel|]. intros _. now apply rel_sendptr. Qed.
End Walk.
