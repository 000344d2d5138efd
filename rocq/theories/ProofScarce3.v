(** Running out of memory, continued: the operations that free memory before
    they allocate, and single operations of a program. *)

From Coq Require Import Ascii String List NArith ZArith Bool Arith Lia Permutation.
From Verif Require Import Base ModelUtil ModelBase64 ModelAddress ModelAttachment ModelMessage ModelReply ModelHeap ModelScarce
  ProofText ProofHeap ProofScarce ProofScarce2.
Import ListNotations.
Open Scope nat_scope.

(** ** Assignments and setters *)

Lemma gcut_ext : forall T A n (ms : Mem T A) mh, (forall q h, ms q h = lift mh q h) -> gcut n ms mh.
Proof. intros T A n ms mh E q h W L. rewrite E. now apply gcut_lift. Qed.

Lemma rough_addr_destroy : forall n o, rough n (addr_destroy o).
Proof. intros. unfold addr_destroy. gentles. Qed.
Lemma rough_att_destroy : forall n o, rough n (att_destroy o).
Proof. intros. unfold att_destroy. gentles. Qed.
Lemma rough_cred_destroy : forall n o, rough n (cred_destroy o).
Proof. intros. unfold cred_destroy. gentles. Qed.
#[global] Hint Resolve rough_addr_destroy rough_att_destroy rough_cred_destroy rough_del : scarce.
Ltac roughs :=
  repeat first
    [ progress intros | solve [ auto with scarce ]
    | match goal with
      | |- rough _ (hbind _ _) => apply rough_bind
      | |- rough _ (match ?x with _ => _ end) => destruct x
      | |- rough _ _ => solve [ apply gentle_rough; gentles ]
      end ].
Lemma rough_delete_addr : forall n p, rough n (delete_addr p).
Proof. intros n [a | ]; cbn; roughs. Qed.
Lemma rough_delete_att : forall n p, rough n (delete_att p).
Proof. intros n [a | ]; cbn; roughs. Qed.
Lemma rough_delete_cred : forall n p, rough n (delete_cred p).
Proof. intros n [a | ]; cbn; roughs. Qed.
#[global] Hint Resolve rough_delete_addr rough_delete_att rough_delete_cred : scarce.
Lemma rough_free_addrs : forall n a k, rough n (free_addrs a k).
Proof. intros. unfold free_addrs. apply rough_bind; [ apply rough_loop; roughs | roughs ]. Qed.
Lemma rough_free_atts : forall n a k, rough n (free_atts a k).
Proof. intros. unfold free_atts. apply rough_bind; [ apply rough_loop; roughs | roughs ]. Qed.
#[global] Hint Resolve rough_free_addrs rough_free_atts : scarce.
Lemma rough_drop_addrs : forall n a k, rough n (drop_addrs a k).
Proof. intros n [a | ] k; cbn; roughs. Qed.
Lemma rough_drop_atts : forall n a k, rough n (drop_atts a k).
Proof. intros n [a | ] k; cbn; roughs. Qed.
#[global] Hint Resolve rough_drop_addrs rough_drop_atts : scarce.
Lemma rough_replace_addrs : forall n a k b m, rough n (replace_addrs a k b m).
Proof. intros. unfold replace_addrs. roughs. Qed.
Lemma rough_replace_atts : forall n a k b m, rough n (replace_atts a k b m).
Proof. intros. unfold replace_atts. roughs. Qed.
Lemma rough_addr_assign : forall n a b, rough n (addr_assign a b).
Proof. intros. unfold addr_assign. roughs. Qed.
#[global] Hint Resolve rough_replace_addrs rough_replace_atts rough_addr_assign : scarce.

Lemma gentle_new_cred_from : forall n src, gentle n src -> gentle n (new_cred (o <~ src ;; cred_copy o)).
Proof. intros. gentles. Qed.
#[global] Hint Resolve gentle_new_cred_from : scarce.

Ltac rcuts :=
  repeat first
    [ progress intros | solve [ auto with scarce ] | apply rcut_ret | apply rcut_lift
    | match goal with
      | |- rcut _ (mbind (tick _) _) _ => apply rcut_tick
      | |- rcut _ (mbind ?m (fun x => mret _)) (hbind _ _) => apply rcut_map
      | |- rcut _ (mbind _ _) (hbind _ _) => apply rcut_bind; [ | solve [ roughs ] | | solve [ roughs ] ]
      | |- rcut _ (during _ _) _ => apply rcut_during
      | |- rcut _ (no_throw _) _ => apply rcut_no_throw
      | |- rcut _ (match ?x with _ => _ end) _ => destruct x
      | |- rcut _ _ _ => apply gcut_rcut; solve [ auto with scarce ]
      end ].

Lemma rcut_addr_assign : forall n a b, rcut n (m_addr_assign a b) (addr_assign a b).
Proof. intros. unfold m_addr_assign, addr_assign, addr_copy. rcuts. Qed.
Lemma rcut_att_assign : forall n a b, rcut n (m_att_assign a b) (att_assign a b).
Proof. intros. unfold m_att_assign, att_assign, att_copy. rcuts. Qed.
Lemma rcut_cred_assign : forall n a b, rcut n (m_cred_assign a b) (cred_assign a b).
Proof. intros. unfold m_cred_assign, cred_assign, cred_copy. rcuts. Qed.
Lemma rcut_setUsername : forall n a u, rcut n (m_cred_setUsername a u) (cred_setUsername a u).
Proof. intros. unfold m_cred_setUsername, cred_setUsername. rcuts. Qed.
Lemma rcut_setPassword : forall n a u, rcut n (m_cred_setPassword a u) (cred_setPassword a u).
Proof. intros. unfold m_cred_setPassword, cred_setPassword. rcuts. Qed.
Lemma rcut_replace_addrs : forall n a k b m, rcut n (m_replace_addrs a k b m) (replace_addrs a k b m).
Proof. intros. unfold m_replace_addrs, replace_addrs. destruct k, m; rcuts. Qed.
Lemma rcut_replace_atts : forall n a k b m, rcut n (m_replace_atts a k b m) (replace_atts a k b m).
Proof. intros. unfold m_replace_atts, replace_atts. destruct k, m; rcuts. Qed.
#[global] Hint Resolve rcut_addr_assign rcut_att_assign rcut_cred_assign rcut_setUsername rcut_setPassword
  rcut_replace_addrs rcut_replace_atts : scarce.
Lemma rcut_msg_assign : forall n a b, rcut n (m_msg_assign a b) (msg_assign a b).
Proof. intros. unfold m_msg_assign, msg_assign. rcuts. Qed.
Lemma rcut_msg_move_assign : forall T n a b, @rcut T _ n (m_msg_move_assign a b) (msg_move_assign a b).
Proof. intros. unfold m_msg_move_assign, msg_move_assign. rcuts. Qed.
Lemma rcut_base_assign : forall n a b, rcut n (m_base_assign a b) (base_assign a b).
Proof. intros. unfold m_base_assign, base_assign. rcuts. Qed.
Lemma rcut_setServerName : forall n a s, rcut n (m_base_setServerName a s) (base_setServerName a s).
Proof. intros. unfold m_base_setServerName, base_setServerName. rcuts. Qed.
Lemma gcut_new_cred_from : forall n src, gentle n src ->
  gcut n (m_new_cred (o <+ lift src ;; m_cred_copy o)) (new_cred (o <~ src ;; cred_copy o)).
Proof. intros. apply gcut_new_cred; [ cuts | gentles ]. Qed.
#[global] Hint Resolve gcut_new_cred_from : scarce.
Lemma rcut_base_setCredentials : forall n a src, gentle n src -> rcut n (m_base_setCredentials a src) (base_setCredentials a src).
Proof. intros. unfold m_base_setCredentials, base_setCredentials. rcuts. Qed.
Lemma rcut_cpp_assign : forall n a b, rcut n (m_cpp_assign a b) (cpp_assign a b).
Proof. intros. unfold m_cpp_assign, cpp_assign. apply rcut_map, rcut_during, rcut_base_assign. Qed.
#[global] Hint Resolve rcut_msg_assign rcut_msg_move_assign rcut_base_assign rcut_setServerName rcut_base_setCredentials rcut_cpp_assign : scarce.

Definition firm_talk (t : talk) : Prop := match t with TStart | TAnswer _ => False | _ => True end.
Lemma gcut_talk : forall n a t, firm_talk t -> gcut n (m_base_talk a t) (base_talk a t).
Proof.
  intros n a [ | [ | ] s | s | e] F; try easy; cbn [m_base_talk base_talk].
  - apply gcut_bind; [ apply gcut_lift | gentles | | roughs ]. intros _. apply gcut_bind; [ apply gcut_dup | gentles | | roughs ].
    intros p. apply gcut_map, gcut_lift.
  - apply gcut_ext. intros q h. unfold mbind, lift, hbind, mret, hret. destruct (h_text PLog (bo_log a) h) as [[] h1]; try reflexivity.
    now destruct (h_put PLog (bo_log a) (Text s) h1) as [[] h2].
  - apply gcut_bind; [ apply gcut_during, gcut_auth_loop | apply gentle_auth_loop | | roughs ]. intros p. apply gcut_map, gcut_lift.
Qed.
Lemma rcut_talk : forall n a t, rcut n (m_base_talk a t) (base_talk a t).
Proof.
  intros n a t. destruct t as [ | g s | s | e]; try (now apply gcut_rcut, gcut_talk); cbn [m_base_talk base_talk]; rcuts.
Qed.
#[global] Hint Resolve rcut_talk : scarce.

(** ** setCredentials of the string API: the temporary *)

Definition rcut1 {T A} (n : nat) (ms : Mem T A) (mh : H A) (h : heap) : Prop := forall q,
  match ms q h with
  | (Ended o q', h') => mh h = (o, h') /\ (q = None -> q' = None)
  | (NoMemory _, h') => q <> None /\ wfh h' /\ h_next h <= h_next h' /\ shrink n h' (snd (mh h))
  | (Terminated, _) => q <> None
  end.
Lemma rcut_at : forall T A n (ms : Mem T A) mh h, rcut n ms mh -> wfh h -> n <= h_next h -> rcut1 n ms mh h.
Proof. intros T A n ms mh h R W L q. exact (R q h W L). Qed.

Lemma rcut1_bind : forall T A C n (ms : Mem T A) mh (ks : A -> Mem T C) kh h, wfh h -> n <= h_next h ->
  rcut1 n ms mh h -> rough n mh -> (forall a h', mh h = (Done a, h') -> wfh h' -> h_next h <= h_next h' -> rcut1 n (ks a) (kh a) h') ->
  (forall a, rough n (kh a)) -> rcut1 n (mbind ms ks) (hbind mh kh) h.
Proof.
  intros T A C n ms mh ks kh h W L G Gm K Gk q. specialize (G q). specialize (Gm h W L). unfold mbind, hbind.
  destruct (ms q h) as [[o q' | t | ] h1]; [ | | exact G ].
  - destruct G as (G & Gq). rewrite G in Gm |- *. cbn [snd] in Gm. destruct Gm as (W1 & L1 & S1).
    destruct o as [a | | u | | | ]; try (now split). specialize (K a h1 G W1 L1 q').
    destruct (ks a q' h1) as [[o q2 | t | ] h2].
    + destruct K as (K & Kq). split; [ exact K | ]. intros e. now apply Kq, Gq.
    + destruct K as (N & W2 & L2 & S2).
      split; [ intros e; now apply N, Gq | split; [ exact W2 | split; [ lia | exact S2 ] ] ].
    + intros e. now apply K, Gq.
  - destruct G as (N & W1 & L1 & S1). split; [ exact N | ]. split; [ exact W1 | ]. split; [ exact L1 | ].
    destruct (mh h) as [[a | | u | | | ] h2]; try exact S1. cbn [snd] in S1, Gm. destruct Gm as (W2 & L2 & _).
    destruct (Gk a h2 W2) as (_ & _ & S3); [ lia | ]. now apply (keep_trans n _ h2).
Qed.

(** What setCredentials is about to free lies below [n]. *)
Definition low (n : nat) (p : ptr) : Prop := match p with Some x => x < n | None => True end.
Definition low_cred (n : nat) (p : ptr) (h : heap) : Prop :=
  match p with
  | None => True
  | Some c => c < n /\ exists k o, lookup c (h_live h) = Some (mkB k (CredObj o)) /\ low n (co_user o) /\ low n (co_pass o)
  end.

Lemma del_above : forall n k p h r h', low n p -> h_del k p h = (r, h') ->
  h_next h' = h_next h /\ forall x, n <= x -> lookup x (h_live h') = lookup x (h_live h).
Proof.
  intros n k [a | ] h r h' Lo E; cbn in Lo; [ | injection E as <- <-; now split ]. unfold h_del in E.
  destruct (lookup a (h_live h)) as [b | ]; [ | injection E as <- <-; now split ].
  assert (X : forall x, n <= x -> lookup x (remove a (h_live h)) = lookup x (h_live h)) by (intros x Lx; apply lookup_remove; lia).
  destruct (b_alloc b), k; injection E as <- <-; now split.
Qed.

Lemma delete_cred_above : forall n p h h', low_cred n p h -> delete_cred p h = (Done tt, h') ->
  h_next h' = h_next h /\ forall x, n <= x -> lookup x (h_live h') = lookup x (h_live h).
Proof.
  intros n [c | ] h h' Lo E; [ | injection E as <-; now split ]. destruct Lo as (Lc & k & o & El & Lu & Lp).
  assert (X : delete_cred (Some c) h = hbind (cred_destroy o) (fun _ => h_del One (Some c)) h).
  { unfold delete_cred, get_cred, h_live_or_double, h_get. unfold hbind at 1 2 3. rewrite El. cbn beta iota. rewrite El. reflexivity. }
  rewrite X in E. clear X. unfold cred_destroy in E. unfold hbind in E.
  destruct (h_del Many (co_user o) h) as [[[] | | | | | ] h1] eqn:E1; try discriminate.
  destruct (h_del Many (co_pass o) h1) as [[[] | | | | | ] h2] eqn:E2; try discriminate.
  destruct (del_above n _ _ _ _ _ Lu E1) as (N1 & A1). destruct (del_above n _ _ _ _ _ Lp E2) as (N2 & A2).
  destruct (del_above n One (Some c) _ _ _ Lc E) as (N3 & A3). split; [ lia | ].
  intros x Lx. now rewrite A3, A2, A1.
Qed.

Lemma cred_new_fresh : forall u w h f h1, wfh h -> cred_new (CCaller u) (CCaller w) h = (Done f, h1) -> exists a b m,
  f = mkCO (Some a) (Some b) m /\ h_next h <= a /\ a < b /\ b < h_next h1 /\
  (exists s, lookup a (h_live h1) = Some (mkB Many (Text s))) /\ (exists s, lookup b (h_live h1) = Some (mkB Many (Text s))).
Proof.
  intros u w h f h1 W E. unfold cred_new, hbind, c_read, hret, hlift in E.
  destruct (credential_new (Some (cstr u)) (Some (cstr w))) as [v | | | | | ]; try discriminate.
  unfold h_dup in E. change (h_new Many (Text (cr_user v)) h) with
    (@Done ptr (Some (h_next h)), mkHeap (S (h_next h)) ((h_next h, mkB Many (Text (cr_user v))) :: h_live h)) in E.
  set (h3 := mkHeap _ _) in E. cbn beta iota in E. unfold h_new in E. cbn beta iota in E. injection E as <- <-.
  exists (h_next h), (h_next h3), (cr_method v). split; [ reflexivity | ].
  cbn [h_next h_live lookup]. unfold h3. cbn [h_next h_live lookup]. rewrite !Nat.eqb_refl. split; [ lia | ]. split; [ lia | ]. split; [ lia | ].
  split; [ | now exists (cr_pass v) ]. exists (cr_user v). destruct (Nat.eqb_spec (h_next h) (S (h_next h))); [ lia | reflexivity ].
Qed.

Lemma cred_destroyed : forall n a b m s t h, wfh h -> n <= h_next h -> n <= a -> n <= b -> a <> b ->
  lookup a (h_live h) = Some (mkB Many (Text s)) -> lookup b (h_live h) = Some (mkB Many (Text t)) ->
  exists h', cred_destroy (mkCO (Some a) (Some b) m) h = (Done tt, h') /\
    wfh h' /\ h_next h <= h_next h' /\ keep n h h' /\ shrink n h h'.
Proof.
  intros n a b m s t h W L La Lb N Ea Eb. exact (addr_destroyed n a b s t h W L La Lb N Ea Eb).
Qed.

Lemma rcut1_setCredentials : forall n o src h, wfh h -> n = h_next h -> low_cred n (bo_cred (po_base o)) h -> gentle n src ->
  rcut1 n (m_cpp_setCredentials o src) (cpp_setCredentials o src) h.
Proof.
  intros n o src h W L Lo Gs. unfold m_cpp_setCredentials, cpp_setCredentials.
  assert (Ln : n <= h_next h) by lia.
  assert (Low : forall h', keep n h h' -> low_cred n (bo_cred (po_base o)) h').
  { intros h' Kh. unfold low_cred in *. destruct (bo_cred (po_base o)) as [c | ]; [ | exact Logic.I ].
    destruct Lo as (Lc & k & x & El & Lx). split; [ exact Lc | ]. exists k, x. split; [ now apply Kh | exact Lx ]. }
  apply rcut1_bind; [ exact W | exact Ln | now apply rcut_at; [ apply rcut_lift | | ] | now apply gentle_rough | | ].
  2:{ intros c. unfold base_setCredentials. roughs. }
  intros c h1 E1 W1 L1. assert (K1 : keep n h h1) by (destruct (Gs h W Ln) as (_ & _ & K & _); now rewrite E1 in K).
  apply rcut1_bind; [ exact W1 | lia | apply rcut_at; [ apply rcut_lift | exact W1 | lia ] | roughs | | ].
  2:{ intros x. unfold base_setCredentials. roughs. }
  intros u h2 E2 W2 L2.
  assert (K2 : keep n h1 h2) by (destruct (gentle_text n PArg (co_user c) h1 W1 ltac:(lia)) as (_ & _ & K & _); now rewrite E2 in K).
  apply rcut1_bind; [ exact W2 | lia | apply rcut_at; [ apply rcut_lift | exact W2 | lia ] | roughs | | ].
  2:{ intros x. unfold base_setCredentials. roughs. }
  intros w h3 E3 W3 L3.
  assert (K3 : keep n h2 h3) by (destruct (gentle_text n PArg (co_pass c) h2 W2 ltac:(lia)) as (_ & _ & K & _); now rewrite E3 in K).
  apply rcut1_bind; [ exact W3 | lia | apply rcut_at; [ rcuts | exact W3 | lia ] | roughs | | ].
  2:{ intros x. unfold base_setCredentials. roughs. }
  intros tmp h4 E4 W4 L4.
  assert (K4 : keep n h3 h4) by (destruct (gentle_cred_new n (CCaller u) (CCaller w) h3 W3 ltac:(lia)) as (_ & _ & K & _); now rewrite E4 in K).
  destruct (cred_new_fresh _ _ _ _ _ W3 E4) as (a & b & m & -> & La & Lab & Lb & (s & Ea) & (t & Eb)).
  assert (Lo4 : low_cred n (bo_cred (po_base o)) h4).
  { apply Low. apply (keep_trans n _ h3); [ | exact K4 ]. apply (keep_trans n _ h2); [ | exact K3 ]. now apply (keep_trans n _ h1). }
  apply rcut1_bind; [ exact W4 | lia | | unfold base_setCredentials; roughs | | ].
  - (* the setter of the base class *)
    intros q. unfold unwinding, m_base_setCredentials, base_setCredentials, mbind, hbind, lift.
    pose proof (rough_delete_cred n (bo_cred (po_base o)) h4 W4 ltac:(lia)) as Rd. cbn zeta in Rd.
    destruct (delete_cred (bo_cred (po_base o)) h4) as [[[] | | x | | | ] h5] eqn:E5; try (now split).
    cbn [snd] in Rd. destruct Rd as (W5 & L5 & S5). destruct (delete_cred_above n _ _ _ Lo4 E5) as (N5 & A5).
    pose proof (gcut_new_cred_from (h_next h5) (hret (mkCO (Some a) (Some b) m)) (gentle_ret _ _ _) q h5 W5 (Nat.le_refl _)) as C.
    pose proof (gentle_new_cred_from (h_next h5) (hret (mkCO (Some a) (Some b) m)) (gentle_ret _ _ _) h5 W5 (Nat.le_refl _)) as C2.
    unfold mbind, hbind, lift, hret in C, C2. cbn zeta in C2. unfold during, hret.
    match type of C with context [m_new_cred ?x q h5] => destruct (m_new_cred x q h5) as [[r q' | z | ] h6] end; [ | | destruct C ].
    + destruct C as (C & Cq). rewrite C. destruct r as [pp | | x | | | ]; try (now split).
    + destruct C as (N & W6 & L6 & K6 & S6).
      destruct (cred_destroyed n a b m s t h6) as (h7 & D & W7 & L7 & K7 & S7); try lia; try assumption.
      { apply K6; [ lia | ]. rewrite A5; [ exact Ea | lia ]. }
      { apply K6; [ lia | ]. rewrite A5; [ exact Eb | lia ]. }
      rewrite D. split; [ exact N | ]. split; [ exact W7 | ]. split; [ lia | ].
      apply (keep_trans n _ h6); [ | exact K7 ]. apply (keep_le n (h_next h5)); [ lia | ].
      match type of S6 with context [snd ?x] => destruct x as [[] ?] end; exact S6.
  - intros bb h5 E5 W5 L5. apply rcut_at; [ | exact W5 | lia ]. rcuts.
  - intros bb. roughs.
Qed.
