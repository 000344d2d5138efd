(** References to WinSock: connecting, whole calls. *)

From Coq Require Import Ascii String List NArith ZArith Bool Lia.
From Verif Require Import Base ModelUtil ModelBase64 ModelAddress ModelAttachment
  ModelErrors ModelReply ModelMessage ModelState ModelClient ModelWorld ModelWin SpecWin ProofWin2 ProofWinRef ProofWinRef2.
Import ListNotations.
Open Scope Z_scope.

(** ** Computations that transfer no data *)

Definition K (c c' : client) : Prop :=
  c_kind c' = c_kind c /\ c_conn c' = c_conn c /\ (c_bio c' = c_bio c \/ c_bio c' = None).
Lemma K_refl c : K c c.
Proof. unfold K. auto. Qed.
Lemma K_trans a b c : K a b -> K b c -> K a c.
Proof. intros (A1 & A2 & A3) (B1 & B2 & B3). split; [congruence|]. split; [congruence|]. destruct B3 as [->| ->]; auto. Qed.
Definition quiet (ev : wevent) : Prop := match ev with WSock e => transfers e = false | _ => True end.
Definition stillM {A} (m : M A) : Prop := forall s, exists l,
  s_t (snd (m s)) = s_t s ++ l /\ Forall (fun e => transfers e = false) l /\ K (s_c s) (s_c (snd (m s))).
Lemma sM_bind {A C} (m : M A) (k : A -> M C) : stillM m -> (forall a, stillM (k a)) -> stillM (bind m k).
Proof.
  intros H J s. destruct (H s) as (l & E & F & S). unfold bind. destruct (m s) as [[a| | | | |] s1]; cbn [snd] in *; try (exists l; auto; fail).
  destruct (J a s1) as (l2 & E2 & F2 & S2). exists (l ++ l2). split; [now rewrite E2, E, app_assoc|]. split; [now apply Forall_app|].
  eapply K_trans; eauto.
Qed.
Lemma sM_quiet {A} (m : M A) : (forall s, s_t (snd (m s)) = s_t s /\ K (s_c s) (s_c (snd (m s)))) -> stillM m.
Proof. intros H s. destruct (H s) as [E S]. exists []. rewrite app_nil_r. auto. Qed.
Lemma sM_upd g : (forall c, K c (g c)) -> stillM (updc g).
Proof. intros H. apply sM_quiet. intros s. split; [reflexivity|apply H]. Qed.
Lemma sM_emit ev : transfers ev = false -> stillM (emit ev).
Proof. intros H s. exists [ev]. split; [reflexivity|]. split; [repeat constructor; exact H|apply K_refl]. Qed.
Ltac kk := intros ?; unfold K; cbn; tauto.
Ltac sM := repeat match goal with
  | |- stillM (bind _ _) => apply sM_bind; [|intros ?]
  | |- stillM (updc _) => apply sM_upd; kk
  | |- stillM (emit _) => apply sM_emit; reflexivity
  | |- stillM (match ?x with _ => _ end) => destruct x
  | |- stillM (let _ := _ in _) => cbv zeta
  | |- stillM (ret _) => apply sM_quiet; intros ?; split; [reflexivity|apply K_refl]
  | |- stillM getc => apply sM_quiet; intros ?; split; [reflexivity|apply K_refl]
  | |- stillM gete => apply sM_quiet; intros ?; split; [reflexivity|apply K_refl]
  | |- stillM (lift _) => apply sM_quiet; intros ?; split; [reflexivity|apply K_refl]
  | |- stillM (fail_ub _) => apply sM_quiet; intros ?; split; [reflexivity|apply K_refl]
  | |- stillM blocked => apply sM_quiet; intros ?; split; [reflexivity|apply K_refl]
  | |- stillM (upde _) => apply sM_quiet; intros ?; split; [reflexivity|apply K_refl]
  end.
Lemma sM_log i p : stillM (addLog i p). Proof. unfold addLog. sM. Qed.
Lemma sM_logc i : stillM (logc i). Proof. apply sM_log. Qed.
Lemma sM_errno z : stillM (setLastSocketErrNo z). Proof. unfold setLastSocketErrNo. sM. Qed.
Lemma sM_connect : stillM sys_connect. Proof. unfold sys_connect. sM. Qed.
Lemma sM_close : stillM close_socket. Proof. unfold close_socket. sM. Qed.
Lemma sM_free : stillM free_tls. Proof. unfold free_tls. sM. Qed.

Definition stillW {A} (m : W A) : Prop := forall v, K (v_c v) (v_c (snd (m v))) /\
  exists tw, v_t (snd (m v)) = v_t v ++ tw /\ Forall quiet tw.
Lemma sW_bind {A C} (m : W A) (k : A -> W C) : stillW m -> (forall a, stillW (k a)) -> stillW (wbind m k).
Proof.
  intros H J v. destruct (H v) as (S & l & E & F). unfold wbind. destruct (m v) as [[a| | | | |] s1]; cbn [snd] in *; try (split; [exact S|]; exists l; auto; fail).
  destruct (J a s1) as (S2 & l2 & E2 & F2). split; [eapply K_trans; eauto|]. exists (l ++ l2). split; [now rewrite E2, E, app_assoc|]. now apply Forall_app.
Qed.
Lemma sW_base {A} (m : M A) : stillM m -> stillW (base m).
Proof.
  intros H v. destruct (H (mkSt (v_c v) (v_e v) [])) as (l & E & F & S). unfold base. destruct (m _) as [o s]. cbn in *. subst l.
  split; [exact S|]. exists (map WSock (s_t s)). split; [reflexivity|]. now apply Forall_map.
Qed.
Lemma sW_put ev : quiet ev -> stillW (wput ev).
Proof. intros H v. split; [apply K_refl|]. exists [ev]. auto. Qed.
Lemma sW_same {A} (m : W A) : (forall v, v_c (snd (m v)) = v_c v /\ v_t (snd (m v)) = v_t v) -> stillW m.
Proof. intros H v. destruct (H v) as [-> ->]. split; [apply K_refl|]. exists []. now rewrite app_nil_r. Qed.
Lemma sW_ret {A} (a : A) : stillW (wret a). Proof. now apply sW_same. Qed.
Lemma sW_on b : stillW (set_on b). Proof. now apply sW_same. Qed.
Lemma sW_get : stillW get_on. Proof. now apply sW_same. Qed.
Lemma sW_next {T} get set (d : T) : stillW (next get set d).
Proof. apply sW_same. intros v. unfold next. now destruct (get (v_w v)). Qed.
Lemma sW_msg er : stillW (addWSAMessage er).
Proof. intros v. unfold addWSAMessage. destruct (x_format (v_w v) er); [apply sW_base, sM_logc|apply sW_ret]. Qed.
Ltac sW := repeat match goal with
  | |- stillW (wbind _ _) => apply sW_bind; [|intros ?]
  | |- stillW (base (logc _)) => apply sW_base, sM_logc
  | |- stillW (base (setLastSocketErrNo _)) => apply sW_base, sM_errno
  | |- stillW (base sys_connect) => apply sW_base, sM_connect
  | |- stillW (base close_socket) => apply sW_base, sM_close
  | |- stillW (base free_tls) => apply sW_base, sM_free
  | |- stillW (base (match ?x with _ => _ end)) => destruct x
  | |- stillW (base _) => apply sW_base; sM; fail
  | |- stillW (wput _) => apply sW_put; exact Logic.I
  | |- stillW (wret _) => apply sW_ret
  | |- stillW (set_on _) => apply sW_on
  | |- stillW get_on => apply sW_get
  | |- stillW (next _ _ _) => apply sW_next
  | |- stillW (addWSAMessage _) => apply sW_msg
  | |- stillW (match ?x with _ => _ end) => destruct x
  end.
Lemma sW_doclean : stillW doWSACleanup. Proof. unfold doWSACleanup. sW. Qed.
Lemma sW_init : stillW initializeSessionW.
Proof. unfold initializeSessionW, initializeSessionWinSock. sW; apply sW_doclean. Qed.
Lemma sW_close : stillW close_socketW. Proof. unfold close_socketW. sW. Qed.
Lemma sW_release : stillW release_winsock. Proof. unfold release_winsock. sW; apply sW_doclean. Qed.

Lemma cnt_quiet t : Forall quiet t -> forall strict n, cnt strict n t = cnt false n t.
Proof.
  induction 1 as [|ev t Q F IH]; intros strict n; [reflexivity|]. destruct ev; cbn in *; auto.
  - rewrite Q. cbn. apply IH.
  - destruct n; auto.
Qed.

(** ** Counting *)

(** [exactly]: nothing is lost. *)
Definition count (exactly : Prop) (strict on on' : bool) (tw : list wevent) : Prop := forall n k, (b2n on + k <= n)%nat ->
  exists n', cnt strict n tw = Some n' /\ (b2n on' + k <= n')%nat /\ (exactly -> Forall freed tw -> n' + b2n on = n + b2n on')%nat.
Lemma count_app P Q strict a b c t1 t2 : count P strict a b t1 -> count Q strict b c t2 -> count (P /\ Q) strict a c (t1 ++ t2).
Proof.
  intros H1 H2 n k L. destruct (H1 n k L) as (n1 & E1 & L1 & X1). destruct (H2 n1 k L1) as (n2 & E2 & L2 & X2).
  exists n2. split; [now rewrite (cnt_app _ _ _ _ _ E1)|]. split; [exact L2|]. intros [PP QQ] F. apply Forall_app in F as [F1 F2].
  specialize (X1 PP F1). specialize (X2 QQ F2). lia.
Qed.
Lemma count_weak (P Q : Prop) strict a b t : (Q -> P) -> count P strict a b t -> count Q strict a b t.
Proof. intros W H n k L. destruct (H n k L) as (n' & E & L' & X). exists n'. auto. Qed.
Lemma counted_count P strict a b t : counted strict a b t -> count P strict a b t.
Proof. intros H n k L. destruct (H n k L) as (n' & E & L' & X). exists n'. auto. Qed.
Lemma count_quiet P strict a b t : Forall quiet t -> count P false a b t -> count P strict a b t.
Proof. intros Q H n k L. destruct (H n k L) as (n' & E & L' & X). exists n'. rewrite (cnt_quiet t Q strict). auto. Qed.

(** ** Connecting *)

(** From a state that holds a reference; [up]: it still does afterwards. *)
Definition ini (up : bool) {A} (m : W A) : Prop := forall v, v_on v = true ->
  (up = true -> v_on (snd (m v)) = true) /\
  exists tw, v_t (snd (m v)) = v_t v ++ tw /\ counted false true (v_on (snd (m v))) tw.
Lemma ini_bind up {A C} (m : W A) (k : A -> W C) : ini true m -> (forall a, ini up (k a)) -> ini up (wbind m k).
Proof.
  intros H J v O. destruct (H v O) as (U & l & E & F). specialize (U eq_refl). unfold wbind.
  destruct (m v) as [[a| | | | |] s1]; cbn [snd] in *; try (split; [auto|]; exists l; auto; fail).
  destruct (J a s1 U) as (U2 & l2 & E2 & F2). split; [exact U2|]. exists (l ++ l2). split; [now rewrite E2, E, app_assoc|].
  rewrite U in F. eapply counted_app; eauto.
Qed.
Lemma ini_base up {A} (m : M A) : ini up (base m).
Proof.
  intros v O. unfold base. destruct (m _) as [o s]. cbn. split; [auto|]. exists (map WSock (s_t s)). split; [reflexivity|]. rewrite O.
  intros n k L. exists n. split; [|repeat split; auto]. generalize (s_t s). intros t. induction t as [|ev t IH]; [reflexivity|]. cbn. rewrite andb_false_r. exact IH.
Qed.
Lemma ini_same up {A} (m : W A) : (forall v, v_on (snd (m v)) = v_on v /\ v_t (snd (m v)) = v_t v) -> ini up m.
Proof. intros H v O. destruct (H v) as [E1 E2]. rewrite E1, E2. split; [auto|]. exists []. rewrite app_nil_r, O. auto using counted_nil. Qed.
Lemma ini_ret up {A} (a : A) : ini up (wret a). Proof. now apply ini_same. Qed.
Lemma ini_next up {T} get set (d : T) : ini up (next get set d).
Proof. apply ini_same. intros v. unfold next. now destruct (get (v_w v)). Qed.
Lemma ini_msg up er : ini up (addWSAMessage er).
Proof. intros v. unfold addWSAMessage. destruct (x_format (v_w v) er); [apply ini_base|apply ini_ret]. Qed.
Lemma ini_addr up h p r : ini up (wput (WAddr h p r)).
Proof. intros v O. split; [auto|]. exists [WAddr h p r]. split; [reflexivity|]. cbn. rewrite O. intros n k L. exists n. auto. Qed.
Lemma ini_clean {A} (a : A) : ini false (doWSACleanup ;;# wret a).
Proof.
  intros v O. split; [discriminate|]. destruct (R_doclean false v O ltac:(discriminate) ltac:(discriminate)) as (_ & _ & tw & E & _ & C).
  exists tw. rewrite O in C. unfold wbind, wret. destruct (doWSACleanup v) as [[] w]; cbn [snd] in *; auto.
Qed.
Ltac ini := repeat match goal with
  | |- ini _ (doWSACleanup ;;# wret _) => apply ini_clean
  | |- ini _ (wbind _ _) => apply ini_bind; [|intros ?]
  | |- ini _ (base _) => apply ini_base
  | |- ini _ (wret _) => apply ini_ret
  | |- ini _ (next _ _ _) => apply ini_next
  | |- ini _ (addWSAMessage _) => apply ini_msg
  | |- ini _ (wput (WAddr _ _ _)) => apply ini_addr
  | |- ini _ (match ?x with _ => _ end) => destruct x
  end.

(** initializeSession after WSAStartup has succeeded. *)
Definition after_startup : W Z :=
    c <# base getc ;;
    ga <# next x_addr set_xaddr 0 ;;
    wput (WAddr (c_server c) (c_port c) ga) ;;#
    if negb (ga =? 0) then
      addWSAMessage ga ;;#
      base (setLastSocketErrNo ga) ;;#
      doWSACleanup ;;#
      wret SOCKET_INIT_SESSION_WINSOCKET_GETADDRINFO_ERROR
    else
      e <# base gete ;;
      match e_sock e with
      | [] => base blocked
      | SkErr er :: l =>
          base (upde (set_esock l);; emit (EvSocket (SkErr er));; updc (set_sock (-1))) ;;#
          addWSAMessage er ;;#
          base (setLastSocketErrNo er) ;;#
          doWSACleanup ;;#
          wret SOCKET_INIT_SESSION_CREATION_ERROR
      | SkFd n :: l =>
          base (upde (set_esock l);; emit (EvSocket (SkFd n));; updc (set_sock (Z.of_N n))) ;;#
          match c_server c with
          | None => base (fail_ub (UB_NullDeref PServer))
          | Some name =>
              base (logc (B "Trying to connect to " ++ name ++ B " on port " ++ dec_of_N (c_port c))) ;;#
              r <# base sys_connect ;;
              match r with
              | None => wret 0
              | Some er =>
                  addWSAMessage er ;;#
                  base (setLastSocketErrNo er) ;;#
                  doWSACleanup ;;#
                  wret SOCKET_INIT_SESSION_CONNECT_ERROR
              end
          end
      end.
Lemma ini_after : ini false after_startup.
Proof. unfold after_startup. ini. Qed.

(** A successful connection holds a reference. *)
Definition zero {A} (z : A -> bool) (m : W A) : Prop := forall v a v', v_on v = true -> m v = (Done a, v') -> z a = true -> v_on v' = true.
Definition same_on {A} (m : W A) : Prop := forall v, v_on (snd (m v)) = v_on v.
Lemma zero_bind {A C} z (m : W A) (k : A -> W C) : same_on m -> (forall a, zero z (k a)) -> zero z (wbind m k).
Proof.
  intros S H v a v' O. unfold wbind. specialize (S v). destruct (m v) as [[x| | | | |] w]; try discriminate. cbn in S. intros E Z.
  eapply H; [|exact E|exact Z]. congruence.
Qed.
Lemma zero_ret {A} z (a : A) : zero z (wret a).
Proof. intros v x v' O E. unfold wret in E. injection E as <- <-. auto. Qed.
Lemma zero_not {A} z (m : W A) : (forall v a v', m v = (Done a, v') -> z a = false) -> zero z m.
Proof. intros H v a v' O E Z. rewrite (H _ _ _ E) in Z. discriminate. Qed.
Lemma zero_then {A C} z (m : W A) (c : C) : z c = false -> zero z (wbind m (fun _ => wret c)).
Proof. intros H. apply zero_not. intros v a v'. unfold wbind, wret. destruct (m v) as [[]]; try discriminate. intros E. now injection E as <- <-. Qed.
Lemma on_base {A} (m : M A) : same_on (base m).
Proof. intros v. unfold base. now destruct (m _). Qed.
Lemma on_put ev : same_on (wput ev). Proof. now intros v. Qed.
Lemma on_ret {A} (a : A) : same_on (wret a). Proof. now intros v. Qed.
Lemma on_next {T} get set (d : T) : same_on (next get set d).
Proof. intros v. unfold next. now destruct (get (v_w v)). Qed.
Lemma on_msg er : same_on (addWSAMessage er).
Proof. intros v. unfold addWSAMessage. destruct (x_format (v_w v) er); [apply on_base|reflexivity]. Qed.
Lemma on_bind {A C} (m : W A) (k : A -> W C) : same_on m -> (forall a, same_on (k a)) -> same_on (wbind m k).
Proof. intros H J v. specialize (H v). unfold wbind. destruct (m v) as [[a| | | | |] w]; cbn in *; auto. rewrite (J a w). exact H. Qed.
Ltac son := repeat match goal with
  | |- same_on (wbind _ _) => apply on_bind; [|intros ?]
  | |- same_on (base _) => apply on_base
  | |- same_on (wput _) => apply on_put
  | |- same_on (wret _) => apply on_ret
  | |- same_on (next _ _ _) => apply on_next
  | |- same_on (addWSAMessage _) => apply on_msg
  | |- same_on (match ?x with _ => _ end) => destruct x
  end.
Lemma zero_same {A} z (m : W A) : same_on m -> zero z m.
Proof. intros H v a v' O E _. specialize (H v). rewrite E in H. cbn in H. congruence. Qed.
Ltac zro := repeat match goal with
  | |- zero _ (doWSACleanup ;;# wret _) => apply zero_then; reflexivity
  | |- zero _ (cleanupW ;;# wret _) => apply zero_then; reflexivity
  | |- zero _ (wbind _ _) => apply zero_bind; [son; fail|intros ?]
  | |- zero _ (wret _) => apply zero_ret
  | |- zero _ (base _) => apply zero_same, on_base
  | |- zero _ (match ?x with _ => _ end) => destruct x
  end.
Lemma zero_after : zero (Z.eqb 0) after_startup.
Proof. unfold after_startup. zro. Qed.

Lemma init_facts v : let '(o, v') := initializeSessionW v in
  K (v_c v) (v_c v') /\ (o = Done 0 -> v_on v' = true) /\
  exists tw, v_t v' = v_t v ++ tw /\ Forall quiet tw /\ existsb starts tw = true /\ forall strict, count (v_on v = false) strict (v_on v) (v_on v') tw.
Proof.
  pose proof (sW_init v) as (SK & tw & E & Q). destruct (initializeSessionW v) as [o v'] eqn:I. cbn [snd] in *.
  split; [exact SK|]. cut ((o = Done 0 -> v_on v' = true) /\ existsb starts tw = true /\ count (v_on v = false) false (v_on v) (v_on v') tw).
  { intros [Z [ST C]]. split; [exact Z|]. exists tw. split; [exact E|]. split; [exact Q|]. split; [exact ST|]. intros strict. now apply count_quiet. }
  clear SK Q. revert I. unfold initializeSessionW. unfold wbind at 1. unfold base at 1. unfold updc at 1.
  cbn [s_c s_e s_t map v_c v_e]. rewrite app_nil_r.
  set (c1 := set_log _ _ _). clearbody c1. unfold initializeSessionWinSock. unfold wbind at 1.
  assert (N : exists st x, next x_start set_xstart 0 (mkV c1 (v_on v) (v_e v) (v_w v) (v_t v)) = (Done st, mkV c1 (v_on v) (v_e v) x (v_t v))).
  { unfold next. cbn. destruct (x_start (v_w v)); eexists _, _; reflexivity. }
  destruct N as (st & x & ->). unfold wbind at 1, wput at 1. cbn [v_c v_on v_e v_w v_t].
  destruct (st =? 0) eqn:S0; cbn [negb].
  - apply Z.eqb_eq in S0. subst st. unfold wbind at 1, set_on at 1. cbn [v_c v_e v_w v_t]. fold after_startup.
    set (v1 := mkV c1 true (v_e v) x (v_t v ++ [WStartup 0])). intros I.
    destruct (ini_after v1 eq_refl) as (_ & t2 & E2 & C2). rewrite I in E2, C2. cbn [snd v1 v_t] in E2, C2.
    assert (tw = WStartup 0 :: t2). { rewrite E2, <- app_assoc in E. now apply app_inv_head in E. } subst tw. split.
    + intros ->. exact (zero_after v1 0 v' eq_refl I eq_refl).
    + split; [reflexivity|]. intros n k L. cbn. destruct (C2 (S n) k) as (n' & C & L' & X); [cbn; destruct (v_on v); cbn in *; lia|].
      exists n'. split; [exact C|]. split; [exact L'|]. intros O F. inversion F; subst. specialize (X H2). rewrite O in *. cbn in *. lia.
  - intros I.
    match type of I with ?m ?w = _ => assert (SO : same_on m) by son; specialize (SO w); rewrite I in SO; cbn in SO end.
    match type of I with ?m ?w = _ => assert (IN : exists l, v_t (snd (m w)) = v_t w ++ l /\ (forall n, cnt false n l = Some n) /\ forall a, fst (m w) = Done a -> a <> 0) end.
    { unfold wbind, base, wret. match goal with |- context [setLastSocketErrNo st ?s] => destruct (setLastSocketErrNo st s) as [[] s1] eqn:E1; try discriminate E1 end.
      match goal with |- context [logc ?a ?b] => destruct (logc a b) as [o2 s2] end.
      assert (CC : forall t n, cnt false n (map WSock t) = Some n).
      { induction t as [|ev t IH]; [reflexivity|]. intros n. cbn. rewrite andb_false_r. apply IH. }
      destruct o2; cbn [fst snd v_t]; eexists; rewrite <- ?app_assoc; (split; [reflexivity|]);
        (split; [intros; rewrite <- map_app; apply CC|]); intros z H; try discriminate H. injection H as <-. discriminate. }
    rewrite I in IN. destruct IN as (l & E2 & C & NZ). cbn in E2, NZ.
    assert (tw = WStartup st :: l). { rewrite E2, <- app_assoc in E. now apply app_inv_head in E. } subst tw.
    split; [intros ->; now destruct (NZ 0)|]. split; [reflexivity|]. intros n k L. cbn. rewrite S0, C. exists n. rewrite SO. auto.
Qed.
