(** The same bytes cut differently. *)

From Coq Require Import Ascii String List NArith ZArith Bool Lia ZifyBool ZifyNat ZifyN.
From Verif Require Import Base Lib ModelUtil ModelBase64 ModelAddress ModelAttachment ModelMessage ModelReply ModelErrors ModelState ModelClient ModelWorld
  ProofAuth ProofPair.
From Verif Require Import SpecAuth SpecPair.
Import ListNotations.
Open Scope Z_scope.

Definition Kc (a b : option credential) : Prop := a = b.
Definition Tc (n : N) : Prop := (0 < n)%N.
Definition Rtc (t1 t2 : list event) : Prop := besides_recv t1 = besides_recv t2.
Lemma Rtc_reads : forall t1 t2 r1 r2, Rtc t1 t2 -> Rtc r1 r2 -> Rtc (t1 ++ r1) (t2 ++ r2).
Proof. unfold Rtc, besides_recv. intros t1 t2 r1 r2 H1 H2. rewrite !filter_app, H1, H2. reflexivity. Qed.
Lemma Rtc_app : forall t1 t2 t, Rtc t1 t2 -> Rtc (t1 ++ t) (t2 ++ t).
Proof. intros. apply Rtc_reads; [assumption|reflexivity]. Qed.
Lemma Kc_none : forall o, Kc None o -> o = None.
Proof. intros o <-. reflexivity. Qed.
Lemma Kc_some : forall cr o, Kc (Some cr) o -> exists cr', o = Some cr' /\ cr_method cr' = cr_method cr.
Proof. intros cr o <-. eauto. Qed.
Lemma Kc_script : forall cr1 cr2 k, Kc (Some cr1) (Some cr2) -> Forall2 (ok_pair Rtc) (script k cr1) (script k cr2).
Proof.
  intros cr1 cr2 k H. injection H as <-. induction (script k cr1); constructor; [|assumption]. intros t1 t2 R. split; intros; apply Rtc_app, R.
Qed.

Definition alike3 {A} (Q : list recv_res -> list recv_res -> Prop) (x1 x2 : outcome A * list event * list recv_res) : Prop :=
  fst (fst x1) = fst (fst x2) /\ Rtc (snd (fst x1)) (snd (fst x2)) /\ Q (snd x1) (snd x2).
Lemma raw_burst : forall fd tmo a w got acc rest, cut a -> (w < tmo)%N ->
  exists evs, besides_recv evs = [] /\ raw_loop fd tmo w got acc (map RData a ++ rest) =
    let '(o, ev, l) := raw_loop fd tmo w (match a with [] => got | _ => true end) (acc ++ concat a) rest in (o, evs ++ ev, l).
Proof.
  intros fd tmo a. induction a as [|d a IH]; intros w got acc rest C Hw.
  - exists []. split; [reflexivity|]. cbn [map app concat]. rewrite app_nil_r. destruct (raw_loop fd tmo w got acc rest) as [[o ev] l]. reflexivity.
  - inversion C as [|? ? (Dn & Dl & Dz) C']; subst. destruct (IH w true (acc ++ d) rest C' Hw) as (evs & B & E).
    exists (EvRecv fd (RData d) :: evs). split; [exact B|]. cbn [map app concat]. cbn [raw_loop].
    assert (R : rbytes (RData d) = d). { cbn [rbytes]. apply firstn_all2. unfold SERVERRESPONSE_BUFFER_LENGTH. apply Nat.lt_le_incl, Dl. }
    rewrite R. destruct d as [|c d]; [contradiction|]. set (D := c :: d) in *.
    destruct (Nat.leb_spec SERVERRESPONSE_BUFFER_LENGTH (length D)) as [X|X]. { exfalso. change SERVERRESPONSE_BUFFER_LENGTH with 1024%nat in X. exact (Nat.lt_irrefl _ (Nat.lt_le_trans _ _ _ Dl X)). }
    destruct (N.ltb_spec w tmo); [|lia]. rewrite (cstr_nonul D Dz). rewrite E.
    assert (G : (match a with [] => true | _ => true end) = true) by (destruct a; reflexivity). rewrite G. rewrite <- app_assoc.
    destruct (raw_loop fd tmo w true (acc ++ D ++ concat a) rest) as [[o ev] l]. reflexivity.
Qed.
Lemma cut_nil : forall a b, cut a -> cut b -> concat a = concat b -> a = [] -> b = [].
Proof.
  intros a b Ca Cb E ->. destruct b as [|d b]; [reflexivity|]. inversion Cb as [|? ? (Dn & _) _]; subst. cbn [concat] in E. destruct d; [contradiction|discriminate E].
Qed.
Lemma raw_resplit : forall fd tmo l1 l2, resplit l1 l2 -> forall w got acc, (w < tmo)%N -> alike3 resplit (raw_loop fd tmo w got acc l1) (raw_loop fd tmo w got acc l2).
Proof.
  intros fd tmo l1 l2 H. induction H as [|x l1 l2 H IH|a b err l1 l2 Ca Cb E H IH]; intros w got acc Hw.
  - repeat split. constructor.
  - cbn [raw_loop]. destruct (rbytes x) as [|c d].
    + destruct (is_err x && got); [repeat split; exact H|]. destruct (N.ltb_spec (w + 1) tmo) as [W|W]; [|repeat split; exact H].
      specialize (IH (w + 1)%N got acc W). destruct (raw_loop fd tmo (w + 1) got acc l1) as [[o1 e1] r1], (raw_loop fd tmo (w + 1) got acc l2) as [[o2 e2] r2].
      destruct IH as (I1 & I2 & I3). cbn [fst snd] in *. split; [exact I1|]. split; [|exact I3]. cbn [fst snd]. exact (Rtc_reads [EvRecv fd x; EvSleep 1] [EvRecv fd x; EvSleep 1] e1 e2 eq_refl I2).
    + destruct (Nat.leb _ _); [repeat split; exact H|]. destruct (N.ltb_spec w tmo) as [W|W]; [|lia].
      specialize (IH w true (acc ++ cstr (c :: d)) W). destruct (raw_loop fd tmo w true _ l1) as [[o1 e1] r1], (raw_loop fd tmo w true _ l2) as [[o2 e2] r2].
      destruct IH as (I1 & I2 & I3). cbn [fst snd] in *. split; [exact I1|]. split; [|exact I3]. exact I2.
  - destruct (raw_burst fd tmo a w got acc (RErr err :: l1) Ca Hw) as (ea & Ba & ->). destruct (raw_burst fd tmo b w got acc (RErr err :: l2) Cb Hw) as (eb & Bb & ->).
    rewrite <- E. assert (G : (match a with [] => got | _ => true end) = match b with [] => got | _ => true end).
    { destruct a as [|x a]; [rewrite (cut_nil [] b Ca Cb E eq_refl); reflexivity|]. destruct b as [|y b]; [|reflexivity]. discriminate (cut_nil [] (x :: a) Cb Ca (eq_sym E) eq_refl). }
    rewrite <- G. set (g := match a with [] => got | _ => true end). cbn [raw_loop rbytes is_err andb].
    destruct g. { split; [reflexivity|]. split; [|exact H]. cbn [fst snd]. apply (Rtc_reads ea eb); [unfold Rtc; rewrite Ba, Bb; reflexivity|reflexivity]. }
    destruct (N.ltb_spec (w + 1) tmo) as [W|W].
    2:{ split; [reflexivity|]. split; [|exact H]. cbn [fst snd]. apply (Rtc_reads ea eb); [unfold Rtc; rewrite Ba, Bb; reflexivity|reflexivity]. }
    specialize (IH (w + 1)%N false (acc ++ concat a) W). destruct (raw_loop fd tmo (w + 1) false _ l1) as [[o1 e1] r1], (raw_loop fd tmo (w + 1) false _ l2) as [[o2 e2] r2].
    destruct IH as (I1 & I2 & I3). cbn [fst snd] in *. split; [exact I1|]. split; [|exact I3]. cbn [fst snd].
    apply (Rtc_reads ea eb); [unfold Rtc; rewrite Ba, Bb; reflexivity|]. exact (Rtc_reads [EvRecv fd (RErr err); EvSleep 1] [EvRecv fd (RErr err); EvSleep 1] e1 e2 eq_refl I2).
Qed.
Lemma resplit_reads : reads_alike Tc Rtc resplit.
Proof. intros fd tmo l1 l2 Ht H. exact (raw_resplit fd tmo l1 l2 H 0%N false [] Ht). Qed.
Lemma later_sub : sub resplit_later resplit.
Proof. intros a b H. induction H; constructor; assumption. Qed.
Lemma later_wait : forall fd tmo l1 l2, resplit_later l1 l2 -> forall w, alike3 resplit (wait_loop (EvRecv fd) tmo w l1) (wait_loop (EvRecv fd) tmo w l2).
Proof.
  intros fd tmo l1 l2 H. induction H as [|x l1 l2 X H IH|d l1 l2 Dn H]; intros w; cbn [wait_loop].
  - repeat split. constructor.
  - assert (E : rbytes x = []) by (destruct X as [->|[err ->]]; reflexivity). rewrite E. apply later_sub in H.
    destruct (N.ltb w tmo); [|repeat split; exact H]. specialize (IH (w + 1)%N).
    destruct (wait_loop _ _ _ l1) as [[o1 e1] r1], (wait_loop _ _ _ l2) as [[o2 e2] r2]. destruct IH as (I1 & I2 & I3). cbn [fst snd] in *.
    split; [exact I1|]. split; [|exact I3]. exact (Rtc_reads [EvRecv fd x; EvSleep 1] [EvRecv fd x; EvSleep 1] e1 e2 eq_refl I2).
  - destruct (rbytes (RData d)) as [|c r] eqn:E; [|repeat split; exact H]. destruct d as [|c d]; [contradiction|discriminate E].
Qed.
Lemma later_greets : greets Tc Rtc resplit_later resplit.
Proof. intros fd tmo l1 l2 _ H. exact (later_wait fd tmo l1 l2 H 0%N). Qed.

Lemma world_resplit : forall i m w c l1 l2, get_client w i = Some c -> (0 < c_timeout c)%N ->
  (c_conn c = true /\ resplit l1 l2 \/ resplit_later l1 l2) ->
  fst (step (OSend i m) (with_recv l1 w)) = fst (step (OSend i m) (with_recv l2 w)) /\
  let w1 := snd (step (OSend i m) (with_recv l1 w)) in let w2 := snd (step (OSend i m) (with_recv l2 w)) in
  w_clients w1 = w_clients w2 /\ besides_recv (w_trace w1) = besides_recv (w_trace w2) /\
  w_env w2 = set_recv (e_recv (w_env w2)) (w_env w1) /\ resplit (e_recv (w_env w1)) (e_recv (w_env w2)).
Proof.
  intros i m w c l1 l2 G Ht H. cbn [step]. unfold run_on. assert (G1 : forall l, get_client (with_recv l w) i = Some c) by (intros l; exact G). rewrite !G1.
  cbn [with_recv w_env w_trace w_clients].
  destruct (sim_sendMail Kc Tc Rtc Rtc Kc_none Kc_some Rtc_app Rtc_reads Kc_script resplit_later resplit m
    (mkSt c (set_recv l1 (w_env w)) (w_trace w)) (mkSt c (set_recv l2 (w_env w)) (w_trace w)) resplit_reads later_sub later_greets) as [E (Lc & (r & Qr & Le) & Lt)].
  { assert (X : forall Q : list recv_res -> list recv_res -> Prop, Q l1 l2 -> like Kc Tc Rtc Q (mkSt c (set_recv l1 (w_env w)) (w_trace w)) (mkSt c (set_recv l2 (w_env w)) (w_trace w))).
    { intros Q q. split; [split; [exact Ht|exists (c_cred c); split; [reflexivity|destruct c; reflexivity]]|]. split; [|reflexivity]. exists l2. split; [exact q|reflexivity]. }
    cbn [s_c]. destruct H as [[C H]|H]; [rewrite C; apply X, H|]. destruct (c_conn c); apply X; [apply later_sub, H|exact H]. }
  destruct (sendMail m (mkSt c (set_recv l1 _) _)) as [x1 s1], (sendMail m (mkSt c (set_recv l2 _) _)) as [x2 s2]. cbn [fst snd] in *. split; [exact E|].
  destruct Lc as (_ & o & Ko & Ec). assert (Ecc : s_c s2 = s_c s1) by (rewrite Ec, <- Ko; destruct (s_c s1); reflexivity).
  cbn [w_clients w_trace w_env]. split; [rewrite Ecc; reflexivity|]. split; [exact Lt|]. rewrite Le. split; [reflexivity|exact Qr].
Qed.
